(** Model of src/util/np_scache.c: a chained hash table.
    Each bucket is a single linked list (np_list.h, property C11); here it is the sequence such a list
    holds.  The keyed hash crypto_shorthash_siphash24 is an arbitrary function of the seed and the key
    bytes.  Every operation runs entirely inside the spinlock of one bucket, so a concurrent run is a
    sequence of these functions in lock order.  malloc failure and the insert time are not modelled
    (the time is stored and never read by this module). *)
From Verif Require Import Base.

(** include/np_types / NP_FINGERPRINT_BYTES: 32 *)
Definition FPB : nat := 32.

Section Cache.
  Context {V : Type}.
  (** crypto_shorthash_siphash24(seed, 32 bytes) read as a 64 bit integer (memcpy, np_scache.c:75-80) *)
  Variable siphash : list Z -> list Z -> Z.

  (** include/util/np_scache.h:41-46: key copy and value *)
  Definition item : Type := list Z * V.
  (** include/util/np_scache.h:50-56 *)
  Record table := mkTable { bucket_size : Z; seed : list Z; buckets : list (list item) }.

  (** src/util/np_scache.c:30-43 *)
  Definition cache_init (size : Z) (sd : list Z) : table :=
    mkTable size sd (repeat [] (Z.to_nat size)).

  (** src/util/np_scache.c:73-82, 114-123: modulo zero is undefined *)
  Definition bucket_of (t : table) (k : list Z) : outcome nat :=
    if bucket_size t =? 0 then UB
    else Ok (Z.to_nat (Z.land (u16 (siphash (seed t) k)) 65535 mod bucket_size t)).

  (** memcmp over the first 32 bytes; a shorter key buffer would be read out of bounds *)
  Definition key_bytes (k : list Z) : outcome (list Z) :=
    if (length k <? FPB)%nat then UB else Ok (firstn FPB k).
  Fixpoint bytes_eqb (a b : list Z) : bool :=
    match a, b with
    | [], [] => true
    | x :: a', y :: b' => (x =? y) && bytes_eqb a' b'
    | _, _ => false
    end.
  (** search loop, src/util/np_scache.c:88-96 and 130-137 *)
  Fixpoint lookup (b : list item) (k : list Z) : option V :=
    match b with
    | [] => None
    | (k', v) :: b' => if bytes_eqb k' k then Some v else lookup b' k
    end.

  (** src/util/np_scache.c:62-100; [None] as key is the NULL pointer (ASSERT) *)
  Definition cache_get (t : table) (key : option (list Z)) : outcome (option V) :=
    match key with
    | None => Abort
    | Some k =>
        obind (key_bytes k) (fun k =>
        obind (bucket_of t k) (fun i => Ok (lookup (nth i (buckets t) []) k)))
    end.

  (** src/util/np_scache.c:102-153 *)
  Definition cache_add (t : table) (key : option (list Z)) (v : V) : outcome (bool * table) :=
    match key with
    | None => Abort
    | Some k =>
        obind (key_bytes k) (fun k =>
        obind (bucket_of t k) (fun i =>
        let b := nth i (buckets t) [] in
        match lookup b k with
        | Some _ => Ok (false, t)
        | None => Ok (true, mkTable (bucket_size t) (seed t) (upd (buckets t) i (b ++ [(k, v)])))
        end))
    end.
End Cache.
