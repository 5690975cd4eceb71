(** C08: the binary heap behaves as a priority queue. *)
From Verif Require Import Base Heap_Model Heap_Spec Heap_Proofs.

(** Every history of inserts and head removals on a freshly created queue of capacity up to 32767
    that does not hit the capacity / emptiness asserts is a legal history of a priority queue. *)
Theorem C08_history_is_priority_queue : forall (A : Type) (cmp : A -> A -> bool) (d : A) cap ops answers q,
  strict_weak cmp -> Z.of_nat cap <= 32767 ->
  run cmp (heap_init d cap) ops = Ok (answers, q) ->
  pq_run cmp cap [] ops answers (heap_list q).
Proof. intros A cmp d cap ops answers q SW Hc H. apply (run_ok cmp SW ops (heap_init d cap)) in H; [apply H|]. apply inv_init; auto. Qed.

(** The asserts fire exactly on inserting into a full and taking from an empty queue. *)
Theorem C08_asserts_exact : forall (A : Type) (cmp : A -> A -> bool) (q : heap A) x,
  (heap_insert cmp q x = Abort <-> (hsize q <= hcount q)%nat) /\
  (heap_head cmp q = Abort <-> hcount q = 0%nat) /\
  (heap_is_empty q = true <-> heap_list q = []).
Proof.
  intros. unfold heap_insert, heap_head, heap_is_empty, heap_list. repeat split; intros H.
  - destruct (Nat.ltb_spec (hcount q) (hsize q)); [discriminate|auto].
  - destruct (Nat.ltb_spec (hcount q) (hsize q)); [lia|auto].
  - destruct (Nat.ltb_spec 0 (hcount q)); [discriminate|lia].
  - rewrite H. reflexivity.
  - apply Nat.eqb_eq in H. rewrite H. reflexivity.
  - destruct (hcount q); [reflexivity|discriminate].
Qed.

(** Looking at the first element shows what taking the head would give. *)
Theorem C08_peek_agrees_with_take : forall (A : Type) (cmp : A -> A -> bool) (q : heap A) y,
  heap_first q = Ok y <-> exists q', heap_head cmp q = Ok (y, q').
Proof. intros. apply first_is_head. Qed.

(** Draining after any history gives a sorted permutation of what is inside. *)
Theorem C08_drain_sorted : forall (A : Type) (cmp : A -> A -> bool) (d : A) cap ops answers q,
  strict_weak cmp -> Z.of_nat cap <= 32767 ->
  run cmp (heap_init d cap) ops = Ok (answers, q) ->
  Permutation (drain cmp (hcount q) q) (heap_list q) /\
  StronglySorted (fun x y => cmp y x = false) (drain cmp (hcount q) q).
Proof.
  intros A cmp d cap ops answers q SW Hc H. apply drain_ok; auto.
  apply (run_ok cmp SW ops (heap_init d cap)) in H; [apply H|]. apply inv_init; auto.
Qed.

(** Non-vacuity: a mixed history with duplicates on a capacity 5 queue. *)
Definition zlt (x y : Z) : bool := x <? y.
Lemma zlt_sw : strict_weak zlt.
Proof. split; unfold zlt; intros; lia. Qed.
Example C08_example :
  match run zlt (heap_init 0 5) [PInsert 7; PInsert 3; PTake; PInsert 5; PInsert 5; PInsert 1; PTake; PTake] with
  | Ok (answers, q) =>
      answers = [None; None; Some 3; None; None; None; Some 1; Some 5] /\ heap_list q = [5; 7] /\ drain zlt 2 q = [5; 7]
  | _ => False
  end.
Proof. vm_compute. repeat split. Qed.

(** Removing from the middle breaks the order: after deleting index 4 from a legal heap the head
    sequence is no longer sorted (include/util/np_heap.h:132-141 never sifts up). *)
Theorem C08_remove_keeps_order_refuted :
  exists (q : heap Z) i,
    (exists ops answers, run zlt (heap_init 0 16) ops = Ok (answers, q)) /\ fst (heap_remove zlt q i) <> None /\
    let q' := snd (heap_remove zlt q i) in
    ~ StronglySorted (fun x y => zlt y x = false) (drain zlt (hcount q') q').
Proof.
  set (ops := map PInsert [8; 1; 9; 6; 6; 2; 3]).
  destruct (run zlt (heap_init 0 16) ops) as [[a q]| |] eqn:E.
  2,3: exfalso; assert (X : match run zlt (heap_init 0 16) ops with Ok _ => True | _ => False end) by (vm_compute; exact I);
       rewrite E in X; exact X.
  exists q, 4%nat. split; [exists ops, a; exact E|].
  assert (X : match run zlt (heap_init 0 16) ops with
              | Ok (_, q) => let q' := snd (heap_remove zlt q 4) in
                  fst (heap_remove zlt q 4) = Some 8 /\ drain zlt (hcount q') q' = [1; 2; 6; 3; 6; 9]
              | _ => False end) by (vm_compute; split; reflexivity).
  rewrite E in X. cbn zeta in X |- *. destruct X as [X1 X2]. split; [rewrite X1; discriminate|].
  rewrite X2. intros H.
  repeat match goal with S : StronglySorted _ _ |- _ => inversion S; clear S; subst end.
  repeat match goal with F : Forall _ _ |- _ => inversion F; clear F; subst end.
  discriminate.
Qed.

Print Assumptions C08_history_is_priority_queue.
Print Assumptions C08_asserts_exact.
Print Assumptions C08_peek_agrees_with_take.
Print Assumptions C08_drain_sorted.
Print Assumptions C08_remove_keeps_order_refuted.
