(** Prefix trie: src/util/np_cupidtrie.c.
    A key is its list of bytes; every key of a trie has [key_length] bytes.  A slot of a branch that is not in the bit mask
    is [None]: the code never looks at such a slot, except where this is the outcome [UB].  The data of a leaf (uintptr_t)
    is a number.  Memory is modelled as far as it decides what the caller sees: whether the data pointer handed out by a
    delete still points to allocated memory.  Not modelled: allocation failure, the key memory (alloc_key_memory),
    np_cupidtrie_intersect with a trie of more than one key, the selection by key of np_cupidtrie_map_reduce. *)
From Verif Require Import Base.

(** np_cupidtrie.c:15-30: leaf with key and data, branch with the position it looks at and 16 slots (key mask and data) *)
Inductive trie := Leaf (key : list Z) (data : Z) | Branch (shift : Z) (kids : list (option trie)).

(** np_cupidtrie.c:100-101 __extract_nibble *)
Definition nibble (key : list Z) (shift : Z) : Z :=
  Z.shiftr (Z.land (Z.shiftl (nth (Z.to_nat (Z.shiftr shift 1)) key 0) (Z.shiftl (Z.land shift 1) 2)) 240) 4.
(** np_cupidtrie.c:103-113 __key_bitmask, __idx_has_next, __idx_next: what is done with the slot of a nibble *)
Section Slots.
  Context {A B : Type}.
  Variables (f : A -> B) (none : B).
  Fixpoint with_kid (kids : list (option A)) (n : nat) {struct kids} : B :=
    match kids, n with
    | [], _ => none
    | o :: _, O => match o with Some t => f t | None => none end
    | _ :: r, S n' => with_kid r n'
    end.
  Definition at_nibble (kids : list (option A)) (x : Z) : B := with_kid kids (Z.to_nat x).
  (** __builtin_ctz of the mask: the first slot in use; the mask 0 is undefined *)
  Fixpoint first_kid (kids : list (option A)) : B :=
    match kids with [] => none | Some t :: _ => f t | None :: r => first_kid r end.
End Slots.
Fixpoint set_kid {A} (kids : list (option A)) (n : nat) (o : option A) : list (option A) :=
  match kids, n with [], _ => [] | _ :: r, O => o :: r | x :: r, S n' => x :: set_kid r n' o end.
Fixpoint mask_empty {A} (kids : list (option A)) : bool := match kids with [] => true | Some _ :: _ => false | None :: r => mask_empty r end.

(** memcmp *)
Fixpoint same_bytes (a b : list Z) : bool :=
  match a, b with [], _ => true | x :: a', y :: b' => (x =? y) && same_bytes a' b' | _ :: _, [] => false end.

(** np_cupidtrie.c:139-161 __find_qpe *)
Fixpoint find_qpe (t : trie) (key : list Z) : option Z :=
  match t with
  | Leaf k v => if same_bytes k key then Some v else None
  | Branch s kids => at_nibble (fun c => find_qpe c key) None kids (nibble key s)
  end.
(** np_cupidtrie.c:564-566 np_cupidtrie_find *)
Definition find (t : option trie) (key : list Z) : option Z := match t with None => None | Some t => find_qpe t key end.

(** np_cupidtrie.c:251-273: the search for the most similar leaf.  [upd] is update_shift, [depth] counts the branches above
    the current one, [ins] the branches above ins_bb_branch (all of them have the slot of the key's nibble) *)
Fixpoint similar (t : trie) (key : list Z) (upd : bool) (depth ins : nat) : outcome (list Z * nat) :=
  match t with
  | Leaf k _ => Ok (k, ins)
  | Branch s kids =>
    if mask_empty kids then UB
    else if upd && at_nibble (fun _ => true) false kids (nibble key s)
         then at_nibble (fun c => similar c key upd (S depth) depth) UB kids (nibble key s)
         else first_kid (fun c => similar c key false (S depth) ins) UB kids
  end.
(** np_cupidtrie.c:275-289: the first bit that differs; uint16_t shf_bits *)
Fixpoint first_diff (new_key tmp_key : list Z) (shf_bits : Z) : option Z :=
  match new_key, tmp_key with
  | a :: k, b :: x => let xr := Z.lxor a b in if 0 <? xr then Some (u16 (shf_bits + (31 - Z.log2 xr - 24))) else first_diff k x (u16 (shf_bits + 8))
  | _, _ => None
  end.
(** the data of the leaf that [similar] ends at *)
Fixpoint set_first {A} (kids : list (option A)) (o : option A) : list (option A) :=
  match kids with [] => [] | Some _ :: r => o :: r | None :: r => None :: set_first r o end.
Fixpoint change (t : trie) (key : list Z) (upd : bool) (f : Z -> Z) : trie :=
  match t with
  | Leaf k v => Leaf k (f v)
  | Branch s kids =>
    if upd && at_nibble (fun _ => true) false kids (nibble key s)
    then Branch s (set_kid kids (Z.to_nat (nibble key s)) (at_nibble (fun c => Some (change c key upd f)) None kids (nibble key s)))
    else Branch s (set_first kids (first_kid (fun c => Some (change c key false f)) None kids))
  end.
Definition no_kids : list (option trie) := repeat None 16.
(** np_cupidtrie.c:321-339 np_new_branch *)
Definition new_branch (t : trie) (key tmp_key : list Z) (shf v : Z) : trie :=
  Branch shf (set_kid (set_kid no_kids (Z.to_nat (nibble tmp_key shf)) (Some t)) (Z.to_nat (nibble key shf)) (Some (Leaf key v))).
(** np_cupidtrie.c:305-349: grow a branch or insert a new one, starting at [t] *)
Fixpoint place (t : trie) (key tmp_key : list Z) (shf v : Z) : outcome trie :=
  match t with
  | Leaf _ _ => Ok (new_branch t key tmp_key shf v)
  | Branch s kids =>
    if shf =? s then
      if at_nibble (fun _ => true) false kids (nibble key s) then Abort
      else Ok (Branch s (set_kid kids (Z.to_nat (nibble key s)) (Some (Leaf key v))))
    else if shf <? s then Ok (new_branch t key tmp_key shf v)
    else obind (at_nibble (fun c => place c key tmp_key shf v) UB kids (nibble key s))
           (fun c => Ok (Branch s (set_kid kids (Z.to_nat (nibble key s)) (Some c))))
  end.
(** the same, starting at ins_bb_branch *)
Fixpoint place_below (t : trie) (ins : nat) (key tmp_key : list Z) (shf v : Z) {struct t} : outcome trie :=
  match ins, t with
  | S ins', Branch s kids =>
    obind (at_nibble (fun c => place_below c ins' key tmp_key shf v) UB kids (nibble key s))
      (fun c => Ok (Branch s (set_kid kids (Z.to_nat (nibble key s)) (Some c))))
  | _, _ => place t key tmp_key shf v
  end.
(** np_cupidtrie.c:228-350 __insert_qpe, 551-561 np_cupidtrie_insert; the caller then replaces the data [x] found in the place
    handed out by [f x] (0 in a new leaf) *)
Definition insert (t : option trie) (key : list Z) (f : Z -> Z) : outcome (option trie) :=
  match t with
  | None => Ok (Some (Leaf key (f 0)))
  | Some t =>
    obind (similar t key true 0 0) (fun '(tmp_key, ins) =>
    match first_diff key tmp_key 0 with
    | None => Ok (Some (change t key true f))
    | Some bits => obind (place_below t ins key tmp_key (Z.shiftr bits 2) (f 0)) (fun t' => Ok (Some t'))
    end)
  end.

(** What a caller of delete gets: the data, or a pointer into memory that was freed *)
Inductive deleted := Data (v : Z) | Dangling | Missing.
(** np_cupidtrie.c:163-226 __delete_qpe below a branch: an emptied branch is freed with the leaf in it *)
Fixpoint delete_below (t : trie) (key : list Z) : option trie * deleted :=
  match t with
  | Leaf k v => if same_bytes k key then (None, Data v) else (Some t, Missing)
  | Branch s kids =>
    match at_nibble (fun c => delete_below c key) (None, Missing) kids (nibble key s) with
    | (_, Missing) => (Some t, Missing)
    | (c, d) =>
      let kids' := set_kid kids (Z.to_nat (nibble key s)) c in
      if mask_empty kids' then (None, match d with Data v => Dangling | _ => d end) else (Some (Branch s kids'), d)
    end
  end.
(** ... at the root: a leaf is taken out, an emptied branch stays with the mask 0 (lines 211-224) *)
Definition delete (t : option trie) (key : list Z) : option trie * deleted :=
  match t with
  | None => (None, Missing)
  | Some (Leaf k v) => delete_below (Leaf k v) key
  | Some (Branch s kids) =>
    match delete_below (Branch s kids) key with
    | (None, d) => (Some (Branch s (map (fun _ => None) kids)), d)
    | r => r
    end
  end.

(** np_cupidtrie.c:658-685 __iterate_qpe_data: the leaves in the order of the walk *)
Fixpoint leaves (t : trie) : list (list Z * Z) :=
  match t with Leaf k v => [(k, v)] | Branch _ kids => flat_map (fun o => match o with Some c => leaves c | None => [] end) kids end.
(** np_cupidtrie.c:516-542 __union_qpe, 579-587 np_cupidtrie_union, with a combine function that always succeeds *)
Fixpoint insert_all (t : option trie) (l : list (list Z * Z)) (combine : Z -> Z -> Z) : outcome (option trie) :=
  match l with [] => Ok t | (k, v) :: r => obind (insert t k (fun x => combine x v)) (fun t' => insert_all t' r combine) end.
Definition union (t join : option trie) (combine : Z -> Z -> Z) : outcome (option trie) :=
  match join with None => Ok t | Some j => insert_all t (leaves j) combine end.
(** np_cupidtrie.c:352-514 __intersect_qpe, 589-599 np_cupidtrie_intersect, for a second trie that is one leaf (lines 405-416,
    429-446; two leaves with different keys: 430-437 find nothing).  Nothing else is changed and the
    failure is turned into success *)
Definition intersect_leaf (t : option trie) (key : list Z) (v : Z) (combine : Z -> Z -> Z) : option trie :=
  match t with
  | None => None
  | Some t' => Some (match find_qpe t' key with Some _ => change t' key true (fun x => combine x v) | None => t' end)
  end.
