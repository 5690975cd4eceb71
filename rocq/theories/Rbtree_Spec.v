(** What red-black trees promise, without reference to how they are implemented. *)
From Verif Require Import Base Rbtree_Model.

(** The balance conditions: [balanced t n] if every path from the root to the bottom passes [n] black nodes and no red
    node has a red child. *)
Inductive balanced {A} : tree A -> nat -> Prop :=
| bal_leaf : balanced Leaf 0
| bal_black l x r n : balanced l n -> balanced r n -> balanced (Node Black l x r) (S n)
| bal_red l x r n : balanced l n -> balanced r n -> is_red l = false -> is_red r = false -> balanced (Node Red l x r) n.

(** Trees the program works on: balanced, root black. *)
Definition proper {A} (t : tree A) : Prop := is_red t = false /\ exists n, balanced t n.

Fixpoint height {A} (t : tree A) : nat :=
  match t with Leaf => 0 | Node _ l _ r => S (Nat.max (height l) (height r)) end.

(** [cmp] orders like [lt] on the values [val x], for search elements satisfying [P] and stored elements satisfying
    [Q]; [ocmp] is a strict total order. *)
Record total_order {O} (ocmp : O -> O -> comparison) : Prop := {
  ord_eq : forall x y, ocmp x y = Eq <-> x = y;
  ord_sym : forall x y, ocmp y x = CompOpp (ocmp x y);
  ord_trans : forall x y z, ocmp x y = Lt -> ocmp y z = Lt -> ocmp x z = Lt }.
