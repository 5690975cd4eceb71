(** Model of include/util/np_heap.h (macro-generated binary heap).
    The element array is a function from index to element (index 0 is the sentinel slot);
    only the [data] member of a node is kept: [priority], [id] and [sentinel] are never read
    by the functions below except in asserts that hold whenever count > 0. *)
From Verif Require Import Base.

Section HeapModel.
  Context {A : Type}.
  (** TYPE##_compare(i, j): "i goes before j". *)
  Variable cmp : A -> A -> bool.

  (** include/util/np_heap.h:56-60 *)
  Record heap := mkHeap { hcount : nat; hsize : nat; hel : nat -> A }.

  (** include/util/np_heap.h:22-27 HEAP_SWAP *)
  Definition swap (h : nat -> A) (i j : nat) : nat -> A :=
    fun k => if Nat.eqb k i then h j else if Nat.eqb k j then h i else h k.
  Definition set (h : nat -> A) (i : nat) (x : A) : nat -> A :=
    fun k => if Nat.eqb k i then x else h k.

  (** include/util/np_heap.h:19-21 with uint16_t truncation of the child index *)
  Definition w16 (n : nat) : nat := Z.to_nat (u16 (Z.of_nat n)).
  Definition heap_left (i : nat) : nat := w16 (2 * i).
  Definition heap_right (i : nat) : nat := w16 (2 * i + 1).
  Definition heap_parent (i : nat) : nat := if Nat.eqb i 1 then 1%nat else Nat.div i 2.

  (** include/util/np_heap.h:85-100 binheapify; recursion bounded by fuel. *)
  Fixpoint heapify (fuel : nat) (count : nat) (h : nat -> A) (i : nat) : nat -> A :=
    match fuel with
    | O => h
    | S fuel' =>
        let l := heap_left i in
        let r := heap_right i in
        let largest := if Nat.leb l count && cmp (h l) (h i) then l else i in
        let largest := if Nat.leb r count && cmp (h r) (h largest) then r else largest in
        if Nat.eqb largest i then h
        else heapify fuel' count (swap h i largest) largest
    end.

  (** include/util/np_heap.h:126-130: the sift-up loop of binheap_insert. *)
  Fixpoint sift_up (fuel : nat) (h : nat -> A) (i : nat) : nat -> A :=
    match fuel with
    | O => h
    | S fuel' =>
        if Nat.ltb 1 i && cmp (h i) (h (heap_parent i))
        then sift_up fuel' (swap h i (heap_parent i)) (heap_parent i)
        else h
    end.

  (** include/util/np_heap.h:119-131; Abort when full (assert) *)
  Definition heap_insert (q : heap) (x : A) : outcome heap :=
    if Nat.ltb (hcount q) (hsize q) then
      let i := S (hcount q) in
      Ok (mkHeap i (hsize q) (sift_up i (set (hel q) i x) i))
    else Abort.

  (** include/util/np_heap.h:109-118; Abort when empty (assert) *)
  Definition heap_head (q : heap) : outcome (A * heap) :=
    if Nat.ltb 0 (hcount q) then
      let ret := hel q 1%nat in
      let h1 := set (hel q) 1 (hel q (hcount q)) in
      let h2 := set h1 (hcount q) (h1 0%nat) in
      let c := Nat.pred (hcount q) in
      Ok (ret, mkHeap c (hsize q) (heapify (hcount q) c h2 1))
    else Abort.

  (** include/util/np_heap.h:101-105 *)
  Definition heap_first (q : heap) : outcome A :=
    if Nat.ltb 0 (hcount q) then Ok (hel q 1%nat) else Abort.

  (** include/util/np_heap.h:106-108 *)
  Definition heap_is_empty (q : heap) : bool := Nat.eqb (hcount q) 0.

  (** include/util/np_heap.h:132-141; [None] when the index is out of range
      (C returns a zeroed element and leaves the heap alone). *)
  Definition heap_remove (q : heap) (i : nat) : option A * heap :=
    if Nat.leb i (hcount q) && Nat.leb 1 i then
      let deleted := hel q i in
      let h := swap (hel q) i (hcount q) in
      let c := Nat.pred (hcount q) in
      (Some deleted, mkHeap c (hsize q) (heapify (hcount q) c h i))
    else (None, q).

  (** include/util/np_heap.h:150-159; [d] stands for the calloc'ed zero element *)
  Definition heap_init (d : A) (max_nodes : nat) : heap := mkHeap 0 max_nodes (fun _ => d).

  (** contents in array order *)
  Definition heap_list (q : heap) : list A := map (hel q) (seq 1 (hcount q)).
End HeapModel.
Arguments heap A : clear implicits.
