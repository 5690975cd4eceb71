(** The generic tree of src/util/np_tree.c: a red-black tree of key/value pairs.

    Values are abstract ([V], with a size); np_treeval_copy_of_val is taken to copy faithfully.  Not modelled: the
    memory of keys and values (attr.in_place), np_tree_get_hash. *)
From Verif Require Import Base Dhkey_Model Rbtree_Model.

(** The keys of the API (np_tree.h): strings without the terminating zero, int16_t, double, uint32_t, np_dhkey_t, uuid.
    A double is given by its rank among all doubles ([None]: not a number): subtraction of two different doubles is
    never zero and has the sign of their order, so only the order matters to np_tree.c:70-77. *)
Inductive ukey :=
| UStr (s : list Z)
| UInt (i : Z)
| UDbl (d : option Z)
| UUlong (u : Z)
| UDhkey (k : Dhkey_Model.key)
| UUuid (b : list Z).

(** np_treeval.h:148-152 as far as keys use it: a string carries the [size] field *)
Inductive tkey :=
| KStr (s : list Z) (size : Z)
| KOther (u : ukey).

(** np_treeval.h:54-85 *)
Definition key_type (k : tkey) : Z :=
  match k with
  | KStr _ _ | KOther (UStr _) => 7
  | KOther (UInt _) => 2
  | KOther (UDbl _) => 6
  | KOther (UUlong _) => 12
  | KOther (UDhkey _) => 21
  | KOther (UUuid _) => 22
  end.

(** strncmp on strings given without their terminating zero; bytes are compared as unsigned *)
Fixpoint strncmp (n : nat) (a b : list Z) : Z :=
  match n with
  | O => 0
  | S n' =>
      let x := hd 0 a in
      let y := hd 0 b in
      if x =? y then if x =? 0 then 0 else strncmp n' (tl a) (tl b) else x - y
  end.

(** memcmp: the sign of the first difference *)
Fixpoint memcmp (a b : list Z) : Z :=
  match a, b with
  | x :: a', y :: b' => if x =? y then memcmp a' b' else x - y
  | _, _ => 0
  end.

(** np_tree.c:57-93 _np_tree_elem_cmp *)
Definition key_cmp (k1 k2 : tkey) : Z :=
  match k1, k2 with
  | KStr s1 n1, KStr s2 n2 =>
      s16 (if n1 >? n2 then strncmp (Z.to_nat (n1 + 1)) s1 s2 else strncmp (Z.to_nat (n2 + 1)) s1 s2)
  | KOther (UDbl a), KOther (UDbl b) =>
      match a, b with
      | Some x, Some y => if x <? y then -1 else if y <? x then 1 else 0
      | _, _ => 0
      end
  | KOther (UUlong a), KOther (UUlong b) => s16 (u32 (a - b))
  | KOther (UInt a), KOther (UInt b) => s16 (a - b)
  | KOther (UDhkey a), KOther (UDhkey b) => np_dhkey_cmp a b
  | KOther (UUuid a), KOther (UUuid b) => s16 (memcmp a b)
  | _, _ => if key_type k1 - key_type k2 >? 0 then 1 else 0
  end.

(** The search element of np_tree_find_* (np_tree.c:116-220): the size of a string is left 0 *)
Definition search_key (u : ukey) : tkey := match u with UStr s => KStr s 0 | _ => KOther u end.

(** The key of a new element (np_tree.c:342-349, 366-368, ...): strings are cut after 255 bytes *)
Definition stored_key (u : ukey) : tkey :=
  match u with
  | UStr s => KStr (firstn 255 s) (Z.of_nat (length (firstn 255 s)))
  | _ => KOther u
  end.

(** The key as np_tree_copy passes it on (np_tree.c:557-571) *)
Definition key_back (k : tkey) : ukey := match k with KStr s _ => UStr s | KOther u => u end.

Section Tree.
Context {V : Type} (undefined : V) (key_size : tkey -> Z) (val_size : V -> Z).

Definition elem : Type := tkey * V.
Definition elem_cmp (a b : elem) : Z := key_cmp (fst a) (fst b).

(** np_tree.h:84-90 *)
Record np_tree := mkTree { root : tree elem; count : Z; bytes : Z; immutable : bool }.

(** np_tree.c:44-55 *)
Definition np_tree_create : np_tree := mkTree Leaf 0 0 false.

(** np_tree.c:317-324 *)
Definition elem_size (e : elem) : Z := key_size (fst e) + val_size (snd e).

Definition search (u : ukey) : elem := (search_key u, undefined).

(** np_tree.c:116-220 np_tree_find_uuid, _str, _int, _dhkey, _ulong, _dbl *)
Definition np_tree_find (u : ukey) (t : np_tree) : option elem := find elem_cmp (search u) (root t).

(** np_tree.c:326-331 *)
Definition np_tree_insert_element (e : elem) (t : np_tree) : outcome np_tree :=
  if immutable t then Abort else
  obind (insert elem_cmp e (root t)) (fun res =>
  Ok (mkTree (fst res) (u64 (count t + 1)) (u64 (bytes t + elem_size e)) (immutable t))).

(** np_tree.c:333-448 np_tree_insert_str, _int, _dhkey, _uuid, _ulong, _dbl *)
Definition np_tree_insert (u : ukey) (v : V) (t : np_tree) : outcome np_tree :=
  match np_tree_find u t with
  | Some _ => Ok t
  | None => np_tree_insert_element (stored_key u, v) t
  end.

(** np_tree.c:463-548 np_tree_replace_* with np_tree_replace_treeval *)
Definition np_tree_replace (u : ukey) (v : V) (t : np_tree) : outcome np_tree :=
  match np_tree_find u t with
  | None => np_tree_insert u v t
  | Some e =>
      if immutable t then Abort else
      Ok (mkTree (fst (find_update elem_cmp (search u) (fun e => (fst e, v)) (root t))) (count t)
                 (u64 (u64 (bytes t - elem_size e) + elem_size (fst e, v))) (immutable t))
  end.

(** np_tree.c:235-282 np_tree_del_* *)
Definition np_tree_del (u : ukey) (t : np_tree) : outcome np_tree :=
  if immutable t then Abort else
  obind (find_remove elem_cmp (search u) (root t)) (fun res =>
  match res with
  | (_, None) => Ok t
  | (r, Some e) => Ok (mkTree r (u64 (count t - 1)) (u64 (bytes t - elem_size e)) (immutable t))
  end).

(** np_tree.c:284-291 np_tree_clear, [n] rounds at most ([UB] after that) *)
Fixpoint clear_loop (n : nat) (t : np_tree) : outcome np_tree :=
  match n with
  | O => UB
  | S n' =>
      obind (remove_min (root t)) (fun res =>
      match res with
      | None => Ok t
      | Some (e, r) => clear_loop n' (mkTree r (u64 (count t - 1)) (u64 (bytes t - elem_size e)) (immutable t))
      end)
  end.
Definition np_tree_clear (t : np_tree) : outcome np_tree := clear_loop (S (length (elements (root t)))) t.

(** np_tree.c:550-571 np_tree_copy, 573-592 np_tree_copy_inplace: over the elements of the source *)
Fixpoint copy_loop (step : ukey -> V -> np_tree -> outcome np_tree) (l : list elem) (t : np_tree) : outcome np_tree :=
  match l with
  | [] => Ok t
  | (k, v) :: l' => obind (step (key_back k) v t) (copy_loop step l')
  end.
Definition np_tree_copy (source target : np_tree) : outcome np_tree :=
  copy_loop np_tree_insert (elements (root source)) target.
Definition np_tree_copy_inplace (source target : np_tree) : outcome np_tree :=
  copy_loop np_tree_replace (elements (root source)) target.

(** np_tree.c:594-604 np_tree_clone *)
Definition np_tree_clone (source : np_tree) : outcome np_tree :=
  obind (np_tree_copy source np_tree_create) (fun t => Ok (mkTree (root t) (count t) (bytes t) (immutable source))).

(** The entries in the order of RB_FOREACH over the tree *)
Definition entries (t : np_tree) : list (ukey * V) := map (fun e => (key_back (fst e), snd e)) (elements (root t)).

(** One call of the API that may change a tree *)
Inductive op :=
| Insert (u : ukey) (v : V)
| Replace (u : ukey) (v : V)
| Delete (u : ukey)
| Clear.

Definition do_op (o : op) (t : np_tree) : outcome np_tree :=
  match o with
  | Insert u v => np_tree_insert u v t
  | Replace u v => np_tree_replace u v t
  | Delete u => np_tree_del u t
  | Clear => np_tree_clear t
  end.
Fixpoint run (h : list op) (t : np_tree) : outcome np_tree :=
  match h with [] => Ok t | o :: h' => obind (do_op o t) (run h') end.

End Tree.
