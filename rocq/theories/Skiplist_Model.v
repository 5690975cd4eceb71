(** Pointer level model of src/util/np_skiplist.c.
    Memory maps addresses to skip nodes; 0 is NULL and address 1 is the embedded root (sentinel) node.
    An access to a freed node or outside of a node's array of successors is [UB].  Loops carry fuel;
    running out of fuel is [UB].  The user comparison is a function on items.
    malloc/realloc failure is not modelled. *)
From Verif Require Import Base.

Section Skip.
  Context {A : Type}.
  (** skiplist->compare_func; the int8_t result is only tested for its sign *)
  Variable cmp : A -> A -> Z.

  (** include/util/np_skiplist.h:24-32: item (None: the root), successors per level; the length of the
      array is the node's _height *)
  Record snode := mkSn { item : option A; nodes : list nat }.
  (** include/util/np_skiplist.h:39-45 *)
  Record skip := mkSk { smem : nat -> option snode; num : Z }.
  Definition ROOT : nat := 1.

  Definition sset (m : nat -> option snode) a n := fun k => if Nat.eqb k a then Some n else m k.
  Definition sget (m : nat -> option snode) a : outcome snode :=
    match m a with Some n => Ok n | None => UB end.
  (** u->_nodes[i] *)
  Definition nxt (m : nat -> option snode) u i : outcome nat :=
    obind (sget m u) (fun n => if (i <? length (nodes n))%nat then Ok (nth i (nodes n) 0%nat) else UB).
  Definition set_nxt (m : nat -> option snode) u i x : outcome (nat -> option snode) :=
    obind (sget m u) (fun n => if (i <? length (nodes n))%nat then Ok (sset m u (mkSn (item n) (upd (nodes n) i x))) else UB).
  (** ->item handed to the comparison; the root has none *)
  Definition item_of (m : nat -> option snode) u : outcome A :=
    obind (sget m u) (fun n => match item n with Some x => Ok x | None => UB end).
  Definition height (m : nat -> option snode) u : nat := match m u with Some n => length (nodes n) | None => 0%nat end.

  (** src/util/np_skiplist.c:54-68 *)
  Definition skip_init : skip := mkSk (sset (fun _ => None) ROOT (mkSn None [])) 0.
  (** src/util/np_skiplist.c:70-72 *)
  Definition skip_size (s : skip) : Z := num s.

  (** the "while" of src/util/np_skiplist.c:103-105, 148-151, 184-187: move right on level [i] while the
      successor's item is smaller; returns the node and the last comparison result *)
  Fixpoint go_right (fuel : nat) (m : nat -> option snode) (x : A) (i : nat) (u : nat) (comp : Z) : outcome (nat * Z) :=
    match fuel with
    | O => UB
    | S fuel' =>
        obind (nxt m u i) (fun n =>
        if Nat.eqb n 0 then Ok (u, comp)
        else obind (item_of m n) (fun y =>
             let c := cmp y x in
             if c <? 0 then go_right fuel' m x i n c else Ok (u, c)))
    end.

  (** the "do ... while" without a body (src/util/np_skiplist.c:154-156): from level r one down, and further
      while the successor is the same; [r] counts levels, level index is r-1 *)
  Fixpoint go_down (r : nat) (m : nat -> option snode) (u : nat) : outcome nat :=
    match r with
    | O => Ok 0%nat
    | S r' =>
        match r' with
        | O => Ok 0%nat
        | S r'' => obind (nxt m u r'') (fun a => obind (nxt m u r') (fun b =>
                     if Nat.eqb a b then go_down r' m u else Ok r'))
        end
    end.

  (** src/util/np_skiplist.c:138-167: search loop *)
  Fixpoint find_loop (lv fuel : nat) (m : nat -> option snode) (x : A) (r u : nat) (comp : Z) : outcome (nat * Z) :=
    match lv with
    | O => UB
    | S lv' =>
        if Nat.eqb r 0 then Ok (u, comp)
        else obind (go_right fuel m x (r - 1) u comp) (fun '(u', c) =>
             obind (go_down r m u') (fun r' => find_loop lv' fuel m x r' u' c))
    end.
  (** src/util/np_skiplist.c:138-167; returns the flag and the value left in *item *)
  Definition skip_find (fuel : nat) (s : skip) (x : A) : outcome (bool * option A) :=
    let m := smem s in
    obind (find_loop (S (height m ROOT)) fuel m x (height m ROOT) ROOT (-1)) (fun '(u, comp) =>
    if (0 <=? comp) && (0 <? height m u)%nat then
      obind (nxt m u 0) (fun n =>
      obind (sget m (if negb (Nat.eqb n 0) then n else u)) (fun y =>
      Ok (comp =? 0, item y)))
    else Ok (false, Some x)).

  (** src/util/np_skiplist.c:196-199: the "do ... while" of add stores u on every level it passes *)
  Fixpoint add_down (r : nat) (m : nat -> option snode) (u : nat) (stack : list nat) : outcome (nat * list nat) :=
    match r with
    | O => Ok (0%nat, stack)
    | S r' =>
        let stack := upd stack r' u in
        match r' with
        | O => Ok (0%nat, stack)
        | S r'' => obind (nxt m u r'') (fun a => obind (nxt m u r') (fun b =>
                     if Nat.eqb a b then add_down r' m u stack else Ok (r', stack)))
        end
    end.
  (** src/util/np_skiplist.c:182-200; [None]: element already exists *)
  Fixpoint add_loop (lv fuel : nat) (m : nat -> option snode) (x : A) (r u : nat) (stack : list nat) : outcome (option (list nat)) :=
    match lv with
    | O => UB
    | S lv' =>
        if Nat.eqb r 0 then Ok (Some stack)
        else obind (go_right fuel m x (r - 1) u 0) (fun '(u', c) =>
             obind (nxt m u' (r - 1)) (fun n =>
             if negb (Nat.eqb n 0) && (c =? 0) then Ok None
             else obind (add_down r m u' stack) (fun '(r', st) => add_loop lv' fuel m x r' u' st)))
    end.
  (** src/util/np_skiplist.c:223-231: link the new node [a] on levels i .. *)
  Fixpoint link_levels (n : nat) (i : nat) (m : nat -> option snode) (a : nat) (stack : list nat) : outcome (nat -> option snode) :=
    match n with
    | O => Ok m
    | S n' =>
        let p := nth i stack 0%nat in
        obind (nxt m p i) (fun f =>
        obind (set_nxt m a i f) (fun m1 =>
        obind (set_nxt m1 p i a) (fun m2 => link_levels n' (S i) m2 a stack)))
    end.
  (** src/util/np_skiplist.c:169-237; [k] is the result of __pick_height + 1, [a] the new node's address *)
  Definition skip_add (fuel : nat) (s : skip) (x : A) (k a : nat) : outcome (bool * skip) :=
    let m := smem s in
    let r := height m ROOT in
    obind (sget m ROOT) (fun root =>
    let stack := nodes root ++ repeat 0%nat (k - r) in
    obind (add_loop (S r) fuel m x r ROOT stack) (fun st =>
    match st with
    | None => Ok (false, s)
    | Some st =>
        let m1 := sset m a (mkSn (Some x) (repeat 0%nat k)) in
        (* increase the height of the list *)
        let m2 := if (r <? k)%nat then sset m1 ROOT (mkSn (item root) (nodes root ++ repeat 0%nat (k - r))) else m1 in
        let st2 := firstn r st ++ (if (r <? k)%nat then repeat ROOT (k - r) else skipn r st) in
        obind (link_levels k 0 m2 a st2) (fun m3 => Ok (true, mkSk m3 (num s + 1)))
    end)).

  (** src/util/np_skiplist.c:107-126: the "do ... while" of remove; unlinks on equality, then goes down *)
  Fixpoint rem_down (r : nat) (m : nat -> option snode) (u : nat) (comp : Z) (rem : option nat)
    : outcome (nat * (nat -> option snode) * option nat) :=
    match r with
    | O => Ok (0%nat, m, rem)
    | S r' =>
        obind (nxt m u r') (fun n =>
        obind (if negb (Nat.eqb n 0) && (comp =? 0)
               then obind (nxt m n r') (fun f => obind (set_nxt m u r' f) (fun m1 => Ok (m1, Some n)))
               else Ok (m, rem)) (fun '(m1, rem1) =>
        match r' with
        | O => Ok (0%nat, m1, rem1)
        | S r'' => obind (nxt m1 u r'') (fun a => obind (nxt m1 u r') (fun b =>
                     if Nat.eqb a b then rem_down r' m1 u comp rem1 else Ok (r', m1, rem1)))
        end))
    end.
  (** src/util/np_skiplist.c:102-127 *)
  Fixpoint rem_loop (lv fuel : nat) (m : nat -> option snode) (x : A) (r u : nat) (comp : Z) (rem : option nat)
    : outcome ((nat -> option snode) * option nat) :=
    match lv with
    | O => UB
    | S lv' =>
        if Nat.eqb r 0 then Ok (m, rem)
        else obind (go_right fuel m x (r - 1) u comp) (fun '(u', c) =>
             obind (rem_down r m u' c rem) (fun '(r', m1, rem1) => rem_loop lv' fuel m1 x r' u' c rem1))
    end.
  (** src/util/np_skiplist.c:93-136 *)
  Definition skip_remove (fuel : nat) (s : skip) (x : A) : outcome (bool * skip) :=
    let m := smem s in
    let r := height m ROOT in
    obind (rem_loop (S r) fuel m x r ROOT (-1) None) (fun '(m1, rem) =>
    match rem with
    | None => Ok (false, mkSk m1 (num s))
    | Some t => obind (sget m1 t) (fun _ => Ok (true, mkSk (fun k => if Nat.eqb k t then None else m1 k) (num s - 1)))
    end).

  (** iteration over level 0 as done by np_skiplist_map (src/util/np_skiplist.c:259-264) *)
  Fixpoint level0 (fuel : nat) (m : nat -> option snode) (u : nat) : outcome (list A) :=
    match fuel with
    | O => UB
    | S fuel' =>
        obind (sget m u) (fun n => match nodes n with
          | [] => Ok []
          | f :: _ => if Nat.eqb f 0 then Ok []
                      else obind (item_of m f) (fun y => obind (level0 fuel' m f) (fun l => Ok (y :: l)))
          end)
    end.
End Skip.

(** src/util/np_skiplist.c:17-33: height from the number of elements and a 31 bit random number.
    [m <<= 1] on an int32_t holding 2^30 overflows (undefined) - reached only if all 31 bits are set. *)
Fixpoint bits (fuel : nat) (n : Z) : Z := match fuel with O => 0 | S f => if 0 <? n then 1 + bits f (n / 2) else 0 end.
Fixpoint trailing_ones (fuel : nat) (z : Z) : outcome Z :=
  match fuel with
  | O => UB
  | S f => if Z.odd z then obind (trailing_ones f (z / 2)) (fun k => Ok (k + 1)) else Ok 0
  end.
Definition pick_height (elements : Z) (z : Z) : outcome Z :=
  let max_height := 1 + bits 64 (u32 elements) in
  obind (trailing_ones 31 z) (fun k => Ok (if max_height <? k then max_height else k)).
