(** Specification vocabulary for keys: plain mathematics, independent of the model. *)
From Verif Require Import Base.

(** The number denoted by a sequence of 32 bit words, most significant word first. *)
Fixpoint kval (k : list Z) : Z :=
  match k with
  | [] => 0
  | w :: k' => w * 4294967296 ^ Z.of_nat (length k') + kval k'
  end.

(** Size of the key ring. *)
Definition ring : Z := 4294967296 ^ 8.

(** [t] lies strictly inside the clockwise arc that starts at [l] and ends at [r];
    an arc from a point to itself is the full circle. *)
Definition inside_arc (l r t : Z) : Prop :=
  0 < (t - l) mod ring < (if l =? r then ring else (r - l) mod ring).

(** Length of the longest common prefix of two sequences. *)
Fixpoint common_prefix (a b : list Z) : nat :=
  match a, b with
  | x :: a', y :: b' => if x =? y then S (common_prefix a' b') else O
  | _, _ => O
  end.

(** Number of bit positions below [n] in which two numbers differ. *)
Fixpoint bits_differing (n : nat) (a b : Z) : Z :=
  match n with
  | O => 0
  | S n' => (if xorb (Z.testbit a (Z.of_nat n')) (Z.testbit b (Z.of_nat n')) then 1 else 0)
            + bits_differing n' a b
  end.

(** True distance on a ring of [m] points. *)
Definition ring_dist (m a b : Z) : Z := Z.min ((a - b) mod m) ((b - a) mod m).

(** Lower case hexadecimal digits as ASCII codes. *)
Definition is_lower_hex (c : Z) : Prop := 48 <= c <= 57 \/ 97 <= c <= 102.

(** Hexadecimal digits of either case, and conversion of a character to lower case. *)
Definition is_hex (c : Z) : Prop := is_lower_hex c \/ 65 <= c <= 70.
Definition to_lower (c : Z) : Z := if (65 <=? c) && (c <=? 90) then c + 32 else c.

(** Rotation of a 256 bit number to the left by [n] bits. *)
Definition rotl (v n : Z) : Z := (v * 2 ^ n) mod ring + (v * 2 ^ n) / ring.
