(** What a min/max signature of a set of tokens is, without reference to how it is computed. *)
From Verif Require Import Base Minhash_Model.

(** the [i]-th hash of a token under a 32 byte seed: two keyed hashes, combined linearly, low 32 bits *)
Definition word (sd : list Z) (t : token) (i : Z) : Z :=
  (siphash24 (firstn 16 sd) t + i * siphash24 (firstn 16 (skipn 16 sd)) t) mod 2 ^ 32.

Definition least (P : Z -> Prop) (x : Z) : Prop := P x /\ forall y, P y -> x <= y.
Definition greatest (P : Z -> Prop) (x : Z) : Prop := P x /\ forall y, P y -> y <= x.

(** The first half of the signature holds, for each index, the least hash of all tokens (2^32-1 when there
    is none), the second half the greatest (0 when there is none). *)
Definition is_signature (sd : list Z) (half : Z) (tokens : token -> Prop) (l : list Z) : Prop :=
  Z.of_nat (length l) = 2 * half /\
  forall i, 0 <= i < half ->
    least (fun x => x = 2 ^ 32 - 1 \/ exists t, tokens t /\ x = word sd t i) (nth (Z.to_nat i) l 0) /\
    greatest (fun x => x = 0 \/ exists t, tokens t /\ x = word sd t i) (nth (Z.to_nat (half + i)) l 0).

(** Shingles: the runs of [k] neighbours in a list. *)
Fixpoint windows {A} (k : nat) (l : list A) : list (list A) :=
  match l with
  | [] => []
  | _ :: r => if (length l <? k)%nat then [] else firstn k l :: windows k r
  end.

(** The tokens of a tree: joined runs of [k] keys (when keys are included) and, for each value that has [k-1]
    predecessors, the joined run of renderings ending there, or, if it is a tree itself, its tokens. *)
Inductive token_of (keys : bool) : nat -> list (token * rval) -> token -> Prop :=
| tok_key k es w : keys = true -> In w (windows (local_shingle k es) (map fst es)) -> token_of keys k es (concat w)
| tok_value k es w s : In w (windows (local_shingle k es) (map snd es)) -> last w (Leaf []) = Leaf s ->
    token_of keys k es (concat (map rendering w))
| tok_sub k es w s sub t : In w (windows (local_shingle k es) (map snd es)) -> last w (Leaf []) = Sub s sub ->
    token_of keys (local_shingle k es) sub t -> token_of keys k es t.

(** no node of the tree has 65536 entries or more *)
Fixpoint moderate (v : rval) : Prop :=
  match v with
  | Leaf _ => True
  | Sub _ es => Z.of_nat (length es) < 65536 /\ (fix all es := match es with [] => True | (_, x) :: r => moderate x /\ all r end) es
  end.
