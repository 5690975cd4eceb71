(** Model of src/util/np_pcg_rng.c: the 32 bit permuted congruential generator.
    The two seed words come from libsodium's randombytes_buf and are arbitrary here.  The global
    generator calls the same functions inside its spinlock, so a concurrent run is a sequence of them. *)
From Verif Require Import Base.

(** include/util/np_pcg_rng.h:34-37 *)
Record rng := mkRng { state : Z; inc : Z }.

(** src/util/np_pcg_rng.c:26 *)
Definition MULT : Z := 6364136223846793005.

(** src/util/np_pcg_rng.c:38-45 (the portable variant); [rot] is unsigned int *)
Definition rotr (value rot : Z) : Z :=
  Z.lor (Z.shiftr value rot) (u32 (Z.shiftl value (Z.land (u32 (- rot)) 31))).

(** src/util/np_pcg_rng.c:51: passing the 64 bit expression to a uint32_t parameter truncates *)
Definition output (s : Z) : Z :=
  rotr (u32 (Z.shiftr (Z.lxor (Z.shiftr s 18) s) 27)) (Z.shiftr s 59).

(** src/util/np_pcg_rng.c:49 *)
Definition step (g : rng) : rng := mkRng (u64 (state g * MULT + inc g)) (inc g).

(** src/util/np_pcg_rng.c:47-55, 74-77 *)
Definition next (g : rng) : Z * rng := (output (state g), step g).

(** src/util/np_pcg_rng.c:57-71 *)
Definition init (seed0 seed1 : Z) : rng :=
  let g0 := mkRng 0 (Z.lor (u64 (Z.shiftl seed1 1)) 1) in
  let g1 := snd (next g0) in
  let g2 := mkRng (u64 (state g1 + seed0)) (inc g1) in
  snd (next g2).

(** src/util/np_pcg_rng.c:27, 35-36: value of the global generator before it is initialised *)
Definition global_initializer : rng := mkRng 9600629759793949339 15726070495360670683.

(** src/util/np_pcg_rng.c:81: unsigned negation; modulo zero is undefined *)
Definition threshold (bound : Z) : Z := u32 (- bound) mod bound.

(** src/util/np_pcg_rng.c:82-85: [None] = the loop is still running after [fuel] rounds *)
Fixpoint draw (fuel : nat) (bound : Z) (g : rng) : option (Z * rng) :=
  match fuel with
  | O => None
  | S f => let (r, g') := next g in
           if threshold bound <=? r then Some (r mod bound, g') else draw f bound g'
  end.

(** src/util/np_pcg_rng.c:79-86 *)
Definition next_bounded (fuel : nat) (bound : Z) (g : rng) : outcome (option (Z * rng)) :=
  if bound =? 0 then UB else Ok (draw fuel bound g).

