(** Model of src/util/np_minhash.c.  The keyed hash is libsodium's crypto_shorthash_siphash24 (SipHash-2-4,
    written out here from its published definition and checked against the published vector; trusted to
    be what libsodium computes).  Byte order: little endian host. *)
From Verif Require Import Base.

(** ** SipHash-2-4 (libsodium, not in /repo) *)
Definition rotl64 (x n : Z) : Z := Z.lor (u64 (Z.shiftl x n)) (Z.shiftr x (64 - n)).

Record sip := mkSip { v0 : Z; v1 : Z; v2 : Z; v3 : Z }.

Definition sipround (s : sip) : sip :=
  let a0 := u64 (v0 s + v1 s) in
  let a1 := Z.lxor (rotl64 (v1 s) 13) a0 in
  let a0 := rotl64 a0 32 in
  let a2 := u64 (v2 s + v3 s) in
  let a3 := Z.lxor (rotl64 (v3 s) 16) a2 in
  let a0 := u64 (a0 + a3) in
  let a3 := Z.lxor (rotl64 a3 21) a0 in
  let a2 := u64 (a2 + a1) in
  let a1 := Z.lxor (rotl64 a1 17) a2 in
  let a2 := rotl64 a2 32 in
  mkSip a0 a1 a2 a3.

Fixpoint le (bs : list Z) : Z := match bs with [] => 0 | b :: r => b + 256 * le r end.

Definition absorb (s : sip) (m : Z) : sip :=
  let s := sipround (sipround (mkSip (v0 s) (v1 s) (v2 s) (Z.lxor (v3 s) m))) in
  mkSip (Z.lxor (v0 s) m) (v1 s) (v2 s) (v3 s).

(** full 8 byte words, then the padded last word that carries the length *)
Fixpoint sip_words (n : nat) (s : sip) (bs : list Z) (len : Z) : sip :=
  match n with
  | O => absorb s (Z.lor (le bs) (Z.shiftl (u8 len) 56))
  | S k => sip_words k (absorb s (le (firstn 8 bs))) (skipn 8 bs) len
  end.

Definition siphash24 (key bs : list Z) : Z :=
  let k0 := le (firstn 8 key) in
  let k1 := le (firstn 8 (skipn 8 key)) in
  let s := mkSip (Z.lxor k0 8317987319222330741) (Z.lxor k1 7237128888997146477)
                 (Z.lxor k0 7816392313619706465) (Z.lxor k1 8387220255154660723) in
  let s := sip_words (length bs / 8) s bs (Z.of_nat (length bs)) in
  let s := mkSip (v0 s) (v1 s) (Z.lxor (v2 s) 255) (v3 s) in
  let s := sipround (sipround (sipround (sipround s))) in
  Z.lxor (Z.lxor (v0 s) (v1 s)) (Z.lxor (v2 s) (v3 s)).

(** ** The signature *)

(** include/util/np_minhash.h:56-61 *)
Inductive mode := MULTI | SINGLE | FIX | FLEX.
Definition mode_eqb (a b : mode) : bool :=
  match a, b with MULTI, MULTI | SINGLE, SINGLE | FIX, FIX | FLEX, FLEX => true | _, _ => false end.

(** include/util/np_minhash.h:68-78; the push function pointer is determined by the mode *)
Record mh := mkMh { size : Z; seed : list Z; mh_mode : mode; mins : list Z; dd_pos : Z }.

Notation token := (list Z) (only parsing).
Definition UMAX : Z := 4294967295.

(** src/util/np_minhash.c:197-239; [seed] are the 32 bytes of the dhkey (eight words copied in order);
    the assertion refuses odd sizes *)
Definition init (sz : Z) (m : mode) (sd : list Z) : outcome mh :=
  if sz mod 2 =? 0
  then Ok (mkMh sz sd m (repeat UMAX (Z.to_nat (sz / 2)) ++ repeat 0 (Z.to_nat (sz - sz / 2))) 0)
  else Abort.

(** the two hashes of a token, src/util/np_minhash.c:33-36 (and the same lines of the other variants);
    the length is a uint16_t, tokens are assumed shorter *)
Definition h1 (h : mh) (t : token) : Z := siphash24 (firstn 16 (seed h)) t.
Definition h2 (h : mh) (t : token) : Z := siphash24 (firstn 16 (skipn 16 (seed h))) t.

(** src/util/np_minhash.c:184: 64 bit arithmetic, then the low 32 bits *)
Definition hash_at (h : mh) (t : token) (i : Z) : Z := u32 (u64 (h1 h t + u64 (i * h2 h t))).

Definition at_ (l : list Z) (i : Z) : Z := nth (Z.to_nat i) l 0.
Definition set_mins (h : mh) (l : list Z) : mh := mkMh (size h) (seed h) (mh_mode h) l (dd_pos h).

(** The functions below use the array only at indices below [size], which is the length of the array
    (invariant [length mins = size]); [at_]'s default is therefore never used by them. *)

(** src/util/np_minhash.c:183-192: one round of the loop *)
Definition multi_step (h : mh) (t : token) (l : list Z) (i : Z) : list Z :=
  let half := size h / 2 in
  let x := hash_at h t i in
  let l := if x <? at_ l i then upd l (Z.to_nat i) x else l in
  if at_ l (i + half) <? x then upd l (Z.to_nat (i + half)) x else l.

Definition zrange (n : Z) : list Z := map Z.of_nat (seq 0 (Z.to_nat n)).

(** src/util/np_minhash.c:166-193 *)
Definition push_multi (h : mh) (t : token) : mh :=
  set_mins h (fold_left (multi_step h t) (zrange (size h / 2)) (mins h)).

(** src/util/np_minhash.c:140-156: (min_h, min_idx, max_h, max_idx) *)
Definition single_step (h : mh) (t : token) (a : Z * Z * Z * Z) (i : Z) : Z * Z * Z * Z :=
  let '(mn, mi, mx, xi) := a in
  let half := size h / 2 in
  let x := hash_at h t i in
  let c := (x <? mn) && (x <? at_ (mins h) i) in
  let d := (mx <? x) && (at_ (mins h) (i + half) <? x) in
  (if c then x else mn, if c then i else mi, if d then x else mx, if d then i + half else xi).

(** src/util/np_minhash.c:128-162; with size 0 the indices are never used *)
Definition push_single (h : mh) (t : token) : mh :=
  let '(mn, mi, mx, xi) := fold_left (single_step h t) (zrange (size h / 2)) (UMAX, 0, 0, size h / 2) in
  let l := if mn <? UMAX then upd (mins h) (Z.to_nat mi) mn else mins h in
  set_mins h (if 0 <? mx then upd l (Z.to_nat xi) mx else l).

(** src/util/np_minhash.c:76-124 *)
Definition push_fix (h : mh) (t : token) : mh :=
  let half := size h / 2 in
  if half <=? dd_pos h then h
  else
    let x := u32 (h1 h t) in let y := u32 (h2 h t) in
    let l := upd (mins h) (Z.to_nat (dd_pos h)) (Z.min x y) in
    mkMh (size h) (seed h) (mh_mode h) (upd l (Z.to_nat (dd_pos h + half)) (Z.max x y)) (u16 (dd_pos h + 1)).

(** src/util/np_minhash.c:26-72.  [junk i] is what realloc leaves in the new cell [i].  Growth happens when
    dd_pos = half, so the memmove copies the first new cell onto itself.  A doubled size that does not fit
    in 16 bits (or an empty signature) makes the array too small for the write that follows. *)
Definition push_flex (junk : Z -> Z) (h : mh) (t : token) : outcome mh :=
  let half := size h / 2 in
  let grow := half <=? dd_pos h in
  if grow && ((size h =? 0) || (65536 <=? 2 * size h)) then UB
  else
    let sz := if grow then size h + size h else size h in
    let l := if grow then mins h ++ map (fun i => junk (size h + i)) (zrange (size h)) else mins h in
    let x := u32 (u64 (h1 h t + u64 (3 * h2 h t))) in
    let l := upd l (Z.to_nat (dd_pos h)) (u32 (at_ l (dd_pos h) - x)) in
    let l := upd l (Z.to_nat (dd_pos h + half)) (u32 (at_ l (dd_pos h + half) + x)) in
    Ok (mkMh sz (seed h) (mh_mode h) l (u16 (dd_pos h + 1))).

(** src/util/np_minhash.c:203-217, 244-248: the push function follows the mode *)
Definition push (junk : Z -> Z) (h : mh) (t : token) : outcome mh :=
  match mh_mode h with
  | MULTI => Ok (push_multi h t)
  | SINGLE => Ok (push_single h t)
  | FIX => Ok (push_fix h t)
  | FLEX => push_flex junk h t
  end.

Fixpoint push_all (junk : Z -> Z) (h : mh) (ts : list token) : outcome mh :=
  match ts with [] => Ok h | t :: r => obind (push junk h t) (fun h' => push_all junk h' r) end.

(** src/util/np_minhash.c:361-366 *)
Definition value (h : mh) : Z := fold_left (fun v x => if x <? v then x else v) (mins h) UMAX.

(** src/util/np_minhash.c:370-372 *)
Definition signature (h : mh) : list Z := mins h.

(** src/util/np_minhash.c:403-421, one round: (union_size, intersect_count) *)
Definition sim_step (m : mode) (a b : list Z) (acc : Z * Z) (i : Z) : Z * Z :=
  let '(un, ic) := acc in
  let x := at_ a i in let y := at_ b i in
  if negb (mode_eqb m MULTI) && ((x =? UMAX) || (y =? UMAX)) then (if x =? y then u16 (un - 1) else un, ic)
  else if negb (mode_eqb m MULTI) && ((x =? 0) || (y =? 0)) then (if x =? y then u16 (un - 1) else un, ic)
  else (un, if x =? y then u16 (ic + 1) else ic).

(** The result is the float quotient of two counters; the model keeps the two counters. *)
Inductive ratio := Ratio (num den : Z).

(** src/util/np_minhash.c:375-424.  sizeof(size) is the same for both, so the size check never fires; an
    index beyond the second array is an out of bounds read. *)
Definition similarity (a b : mh) : outcome ratio :=
  if negb (mode_eqb (mh_mode a) (mh_mode b)) then Ok (Ratio 0 1)
  else
    let cs := if mode_eqb (mh_mode a) FLEX then Z.min (size a) (size b) else size a in
    let us := if mode_eqb (mh_mode a) FLEX then Z.max (size a) (size b) else size a in
    if Z.of_nat (length (mins b)) <? cs then UB
    else let '(un, ic) := fold_left (sim_step (mh_mode a) (mins a) (mins b)) (zrange cs) (us, 0) in Ok (Ratio ic un).

(** src/util/np_minhash.c:436-444, with the start index of the second loop as written *)
Definition merge_step (lt : Z -> Z -> bool) (b : list Z) (a : list Z) (i : Z) : list Z :=
  if lt (at_ b i) (at_ a i) then upd a (Z.to_nat i) (at_ b i) else a.
Definition merge (a b : mh) : outcome mh :=
  if negb (mode_eqb (mh_mode a) (mh_mode b)) then Ok a
  else if Z.of_nat (length (mins b)) <? size a then UB
  else
    let half := size a / 2 in
    let l := fold_left (merge_step Z.ltb (mins b)) (zrange half) (mins a) in
    Ok (set_mins a (fold_left (merge_step Z.gtb (mins b))
                      (map (fun i => half + 1 + i) (zrange (size a - (half + 1)))) l)).

(** ** Trees *)

(** A tree with its keys and values already rendered by np_treeval_to_str, in RB_FOREACH order.
    A value of type tree also has a rendering (used when it is inside a later shingle). *)
Inductive rval := Leaf (s : token) | Sub (s : token) (es : list (token * rval)).
Definition rendering (v : rval) : token := match v with Leaf s => s | Sub s _ => s end.

(** strncat into substring[512]; src/util/np_minhash.c:296-301, 329-342 *)
Definition joined (parts : list token) : outcome token :=
  let s := concat parts in if (Z.of_nat (length s) <? 512) then Ok s else UB.

(** src/util/np_minhash.c:308-311: the parts move one place to the left, the last keeps its content *)
Definition shift (parts : list token) : list token := tl parts ++ [last parts []].
Definition place (k : nat) (parts : list token) (s : token) : list token := upd parts (k - 1) s.

(** src/util/np_minhash.c:288-313; [i] is a uint16_t *)
Fixpoint key_tokens (k : nat) (i : Z) (parts : list token) (es : list (token * rval)) : outcome (list token) :=
  match es with
  | [] => Ok []
  | (ks, _) :: r =>
      let parts := place k parts ks in
      let rest := key_tokens k (u16 (i + 1)) (shift parts) r in
      if Z.of_nat k - 1 <=? i
      then obind (joined parts) (fun s => obind rest (fun l => Ok (s :: l)))
      else rest
  end.

(** src/util/np_minhash.c:274: shingles no larger than the (sub)tree *)
Definition local_shingle (k : nat) (es : list (token * rval)) : nat := Nat.min k (length es).

(** src/util/np_minhash.c:317-356; [sub] are the tokens of a value that is a tree *)
Definition value_tokens (sub : rval -> outcome (list token)) (k : nat) : Z -> list token -> list (token * rval) -> outcome (list token) :=
  fix values (i : Z) (parts : list token) (es : list (token * rval)) : outcome (list token) :=
    match es with
    | [] => Ok []
    | (_, x) :: r =>
        let parts := place k parts (rendering x) in
        let rest := values (u16 (i + 1)) (shift parts) r in
        if Z.of_nat k - 1 <=? i
        then obind (match x with
                    | Sub _ _ => sub x
                    | Leaf _ => obind (joined parts) (fun s => Ok [s])
                    end) (fun s => obind rest (fun l => Ok (s ++ l)))
        else rest
    end.

(** src/util/np_minhash.c:266-358: the tokens pushed for the tree, in order *)
Fixpoint tree_tokens (keys : bool) (k : nat) (v : rval) : outcome (list token) :=
  match v with
  | Leaf _ => Ok []
  | Sub _ es =>
      let k := local_shingle k es in
      obind (if keys then key_tokens k 0 (repeat [] k) es else Ok []) (fun a =>
      obind (value_tokens (tree_tokens keys k) k 0 (repeat [] k) es) (fun b => Ok (a ++ b)))
  end.

(** src/util/np_minhash.c:266-272: the assertion on the shingle size; [es] is the tree's content *)
Definition push_tree (junk : Z -> Z) (h : mh) (es : list (token * rval)) (shingle : nat) (keys : bool) : outcome mh :=
  if (shingle =? 0)%nat then Abort
  else obind (tree_tokens keys shingle (Sub [] es)) (push_all junk h).

(** Published vector of SipHash-2-4: key 00..0f, message 00..0e. *)
Example siphash_vector :
  siphash24 (map Z.of_nat (seq 0 16)) (map Z.of_nat (seq 0 15)) = 11613035633349379557.
Proof. vm_compute. reflexivity. Qed.
