(** What the bounded random numbers promise, independent of the generator. *)
From Verif Require Import Base Rng_Model.

(** A generator a caller may hold: any state, odd increment (what initialisation produces). *)
Definition usable (g : rng) : Prop := 0 <= state g < 2 ^ 64 /\ 0 <= inc g < 2 ^ 64 /\ Z.odd (inc g) = true.

(** all 32 bit words *)
Definition words : list Z := map Z.of_nat (seq 0 (Z.to_nat (2 ^ 32))).

(** The draw answers [v]: some number of raw words were rejected, and the last one gave [v]. *)
Definition answers (bound : Z) (g : rng) (v : Z) (g' : rng) : Prop :=
  exists fuel, next_bounded fuel bound g = Ok (Some (v, g')).

(** The answer a raw word leads to when it is the next word of the generator; [None] = drawn again. *)
Definition answer_of_word (bound w : Z) : option Z :=
  if threshold bound <=? w then Some (w mod bound) else None.

Definition leads_to (bound v w : Z) : bool :=
  match answer_of_word bound w with Some r => r =? v | None => false end.
