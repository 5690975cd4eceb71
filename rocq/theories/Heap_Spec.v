(** What a priority queue is: a bag from which a minimum is taken. *)
From Verif Require Import Base.

(** [cmp x y = true] means x goes strictly before y; the induced order must be a total preorder. *)
Record strict_weak {A} (cmp : A -> A -> bool) : Prop := {
  sw_irrefl : forall x, cmp x x = false;
  sw_trans : forall x y z, cmp y x = false -> cmp z y = false -> cmp z x = false;
  sw_asym : forall x y, cmp x y = true -> cmp y x = false
}.

(** Operations of a user of the queue. *)
Inductive pq_op (A : Type) := PInsert (x : A) | PTake.
Arguments PInsert {A} x.
Arguments PTake {A}.

(** Legal behaviour of a priority queue with capacity [cap], as a relation between the bag before,
    the operation, the answer and the bag after.  Bags are lists up to permutation. *)
Inductive pq_step {A} (cmp : A -> A -> bool) (cap : nat) : list A -> pq_op A -> option A -> list A -> Prop :=
| pq_insert : forall m x m', (length m < cap)%nat -> Permutation (x :: m) m' ->
    pq_step cmp cap m (PInsert x) None m'
| pq_take : forall m y m', Permutation m (y :: m') -> (forall z, In z m -> cmp z y = false) ->
    pq_step cmp cap m PTake (Some y) m'.

Inductive pq_run {A} (cmp : A -> A -> bool) (cap : nat) : list A -> list (pq_op A) -> list (option A) -> list A -> Prop :=
| pq_nil : forall m, pq_run cmp cap m [] [] m
| pq_cons : forall m o a m1 os as_ m2, pq_step cmp cap m o a m1 -> pq_run cmp cap m1 os as_ m2 ->
    pq_run cmp cap m (o :: os) (a :: as_) m2.
