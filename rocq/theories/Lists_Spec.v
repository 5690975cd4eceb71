(** Sequences and what it means that memory holds one. *)
From Verif Require Import Base Lists_Model.

(** Following the forward links from [hd addrs] visits [addrs] with values [vals] and ends at [n]. *)
Fixpoint sseg {A} (m : mem A) (addrs : list nat) (vals : list A) (n : nat) : Prop :=
  match addrs, vals with
  | [], [] => True
  | a :: as', v :: vs' =>
      a <> 0%nat /\ (exists b, m a = Some (mkNode (hd n as') b v)) /\ sseg m as' vs' n
  | _, _ => False
  end.
(** Same, with backward links; [p] is the predecessor of the first node. *)
Fixpoint dseg {A} (m : mem A) (p : nat) (addrs : list nat) (vals : list A) (n : nat) : Prop :=
  match addrs, vals with
  | [], [] => True
  | a :: as', v :: vs' =>
      a <> 0%nat /\ m a = Some (mkNode (hd n as') p v) /\ dseg m a as' vs' n
  | _, _ => False
  end.

Definition header_ok {A} (h : hdr) (addrs : list nat) (vals : list A) : Prop :=
  first h = hd 0%nat addrs /\ last_ h = last addrs 0%nat /\ size h = u32 (Z.of_nat (length vals)).

(** A single linked list at header [h] holds the sequence [vals], its nodes are [addrs]. *)
Definition sll_holds {A} (m : mem A) (h : hdr) (addrs : list nat) (vals : list A) : Prop :=
  sseg m addrs vals 0 /\ NoDup addrs /\ header_ok h addrs vals.
Definition dll_holds {A} (m : mem A) (h : hdr) (addrs : list nat) (vals : list A) : Prop :=
  dseg m 0 addrs vals 0 /\ NoDup addrs /\ header_ok h addrs vals.

(** Memory outside of [touched] is unchanged. *)
Definition same_outside {A} (m m' : mem A) (touched : list nat) : Prop :=
  forall a, ~ In a touched -> m' a = m a.

Definition is_fresh {A} (m : mem A) (a : nat) : Prop := a <> 0%nat /\ m a = None.

(** remove the first element satisfying p *)
Fixpoint remove_first {A} (p : A -> bool) (l : list A) : list A :=
  match l with
  | [] => []
  | x :: l' => if p x then l' else x :: remove_first p l'
  end.

(** keep the first of several equal elements, appended to [acc] *)
Fixpoint add_missing {A} (cmp : A -> A -> Z) (acc l : list A) : list A :=
  match l with
  | [] => acc
  | x :: l' => if existsb (fun v => cmp v x =? 0) acc then add_missing cmp acc l' else add_missing cmp (acc ++ [x]) l'
  end.

(** Insert before the first smaller element; [None]: refused because an equal one came first. *)
Fixpoint ordered_insert {A} (cmp : A -> A -> Z) (dups : bool) (x : A) (l : list A) : option (list A) :=
  match l with
  | [] => Some [x]
  | y :: l' => if cmp y x <? 0 then Some (x :: y :: l')
               else if (cmp y x =? 0) && negb dups then None
               else match ordered_insert cmp dups x l' with Some r => Some (y :: r) | None => None end
  end.

(** A comparison function in the C sense. *)
Record comparator {A} (cmp : A -> A -> Z) : Prop := {
  cmp_refl : forall x, cmp x x = 0;
  cmp_anti : forall x y, cmp x y < 0 <-> cmp y x > 0;
  cmp_trans : forall x y z, cmp x y <= 0 -> cmp y z <= 0 -> cmp x z <= 0
}.
(** descending: no element is smaller than a later one *)
Definition descending {A} (cmp : A -> A -> Z) (l : list A) : Prop := StronglySorted (fun x y => cmp x y >= 0) l.

(** What the operations mean for a sequence. *)
Inductive seq_op (A : Type) :=
| OAppend (x : A) | OPrepend (x : A) | OHead | OTail
| ORemove (x : A) | OContains (x : A).
Arguments OAppend {A}. Arguments OPrepend {A}. Arguments OHead {A}. Arguments OTail {A}.
Arguments ORemove {A}. Arguments OContains {A}.
Inductive answer (A : Type) := ANone | AVal (v : option A) | ABool (b : bool).
Arguments ANone {A}. Arguments AVal {A}. Arguments ABool {A}.
Definition seq_step {A} (cmp : A -> A -> Z) (l : list A) (o : seq_op A) : list A * answer A :=
  match o with
  | OAppend x => (l ++ [x], ANone)
  | OPrepend x => (x :: l, ANone)
  | OHead => (tl l, AVal (hd_error l))
  | OTail => (removelast l, AVal (hd_error (rev l)))
  | ORemove x => (remove_first (fun v => cmp v x =? 0) l, ANone)
  | OContains x => (l, ABool (existsb (fun v => cmp v x =? 0) l))
  end.
Fixpoint seq_run {A} (cmp : A -> A -> Z) (l : list A) (os : list (seq_op A)) : list A * list (answer A) :=
  match os with
  | [] => (l, [])
  | o :: os' => let '(l1, a) := seq_step cmp l o in let '(l2, r) := seq_run cmp l1 os' in (l2, a :: r)
  end.

(** One step of an implementation: memory, header, operation, address for a new node. *)
Definition impl_step (A : Type) := mem A -> hdr -> seq_op A -> nat -> outcome (answer A * mem A * hdr).
Fixpoint impl_run {A} (st : impl_step A) (m : mem A) (h : hdr) (os : list (seq_op A * nat))
  : outcome (list (answer A) * mem A * hdr) :=
  match os with
  | [] => Ok ([], m, h)
  | (o, a) :: os' =>
      obind (st m h o a) (fun '(r, m1, h1) =>
      obind (impl_run st m1 h1 os') (fun '(rs, m2, h2) => Ok (r :: rs, m2, h2)))
  end.
(** The allocator hands out unused addresses (it may hand out addresses freed before). *)
Fixpoint allocs_fresh {A} (st : impl_step A) (m : mem A) (h : hdr) (os : list (seq_op A * nat)) : Prop :=
  match os with
  | [] => True
  | (o, a) :: os' =>
      is_fresh m a /\ match st m h o a with Ok (_, m1, h1) => allocs_fresh st m1 h1 os' | _ => True end
  end.

(** Priority list: what one operation may do to the sequence. *)
Inductive prio_op (A : Type) := PInsert (dups : bool) (x : A) | PHead | PTail | PRemove (x : A).
Arguments PInsert {A}. Arguments PHead {A}. Arguments PTail {A}. Arguments PRemove {A}.
Definition prio_step {A} (cmp : A -> A -> Z) (l : list A) (o : prio_op A) (r : answer A) (l' : list A) : Prop :=
  match o with
  | PInsert dups x =>
      if negb dups && existsb (fun y => cmp y x =? 0) l then r = ABool false /\ l' = l
      else r = ABool true /\
           exists l1 l2, l = l1 ++ l2 /\ l' = l1 ++ x :: l2 /\
             (forall y, In y l1 -> cmp y x >= 0) /\ (forall y, In y l2 -> cmp y x < 0)
  | PHead => r = AVal (hd_error l) /\ l' = tl l
  | PTail => r = AVal (hd_error (rev l)) /\ l' = removelast l
  | PRemove x => r = ANone /\ l' = remove_first (fun v => cmp v x =? 0) l
  end.
Inductive prio_run {A} (cmp : A -> A -> Z) : list A -> list (prio_op A) -> list (answer A) -> list A -> Prop :=
| pr_nil l : prio_run cmp l [] [] l
| pr_cons l o r l1 os rs l2 : prio_step cmp l o r l1 -> prio_run cmp l1 os rs l2 ->
    prio_run cmp l (o :: os) (r :: rs) l2.

(** The three containers as implementations of the operations. *)
Definition sll_do {A} (cmp : A -> A -> Z) (fuel : nat) : impl_step A := fun m h o a =>
  match o with
  | OAppend x => obind (sll_append m h a x) (fun '(m1, h1) => Ok (ANone, m1, h1))
  | OPrepend x => obind (sll_prepend m h a x) (fun '(m1, h1) => Ok (ANone, m1, h1))
  | OHead => obind (sll_head fuel m h) (fun '(v, m1, h1) => Ok (AVal v, m1, h1))
  | OTail => obind (sll_tail fuel m h) (fun '(v, m1, h1) => Ok (AVal v, m1, h1))
  | ORemove x => obind (sll_remove fuel cmp m h x) (fun '(m1, h1) => Ok (ANone, m1, h1))
  | OContains x => obind (sll_contains fuel cmp m h x) (fun b => Ok (ABool b, m, h))
  end.
Definition dll_do {A} (cmp : A -> A -> Z) (fuel : nat) : impl_step A := fun m h o a =>
  match o with
  | OAppend x => obind (dll_append m h a x) (fun '(m1, h1) => Ok (ANone, m1, h1))
  | OPrepend x => obind (dll_prepend m h a x) (fun '(m1, h1) => Ok (ANone, m1, h1))
  | OHead => obind (dll_head m h) (fun '(v, m1, h1) => Ok (AVal v, m1, h1))
  | OTail => obind (dll_tail m h) (fun '(v, m1, h1) => Ok (AVal v, m1, h1))
  | ORemove x => obind (dll_remove fuel (fun v => cmp v x =? 0) m h) (fun '(m1, h1) => Ok (ANone, m1, h1))
  | OContains x => obind (dll_search fuel m (fun v => cmp v x =? 0) (first h)) (fun b => Ok (ABool (negb (Nat.eqb b 0)), m, h))
  end.
Definition pll_do {A} (cmp : A -> A -> Z) (fuel : nat) (m : mem A) (h : hdr) (o : prio_op A) (a : nat)
  : outcome (answer A * mem A * hdr) :=
  match o with
  | PInsert dups x => obind (pll_insert fuel cmp dups m h a x) (fun '(b, m1, h1) => Ok (ABool b, m1, h1))
  | PHead => obind (dll_head m h) (fun '(v, m1, h1) => Ok (AVal v, m1, h1))
  | PTail => obind (dll_tail m h) (fun '(v, m1, h1) => Ok (AVal v, m1, h1))
  | PRemove x => obind (dll_remove fuel (fun v => cmp v x =? 0) m h) (fun '(m1, h1) => Ok (ANone, m1, h1))
  end.
Fixpoint pll_run {A} (cmp : A -> A -> Z) (fuel : nat) (m : mem A) (h : hdr) (os : list (prio_op A * nat))
  : outcome (list (answer A) * mem A * hdr) :=
  match os with
  | [] => Ok ([], m, h)
  | (o, a) :: os' =>
      obind (pll_do cmp fuel m h o a) (fun '(r, m1, h1) =>
      obind (pll_run cmp fuel m1 h1 os') (fun '(rs, m2, h2) => Ok (r :: rs, m2, h2)))
  end.
Fixpoint pll_allocs_fresh {A} (cmp : A -> A -> Z) (fuel : nat) (m : mem A) (h : hdr) (os : list (prio_op A * nat)) : Prop :=
  match os with
  | [] => True
  | (o, a) :: os' =>
      is_fresh m a /\ match pll_do cmp fuel m h o a with Ok (_, m1, h1) => pll_allocs_fresh cmp fuel m1 h1 os' | _ => True end
  end.
