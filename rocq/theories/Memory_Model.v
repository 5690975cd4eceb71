(** Model of the reference counted object pools: src/np_memory.c.
    One container (one object type).  Items are named by numbers standing for their addresses; a fresh address is
    used for every malloc (simplification: addresses of deleted items are not handed out again).
    The persistent flag is left out: nothing in the code sets it to true.
    Not modelled: statistics (the wish to shrink the pool is an input), reasons strings, shutdown, malloc failure. *)
From Verif Require Import Base.

(** np_memory.c:97-114 *)
Record item := mkItem { in_use : bool; needs_refresh : bool; ref_count : Z }.
(** user supplied callbacks of the object type, in the order they are called (np_memory.c:75-77) *)
Inductive call := OnRefresh (x : nat) | OnNew (x : nat) | OnFree (x : nat).
(** np_memory.c:68-94; [has_refresh]: on_refresh_space is set; [next]: first address never used *)
Record pool := mkPool {
  has_refresh : bool; per_block : nat; min_count : nat;
  items : nat -> option item; next : nat;
  free : list nat; refreshed : list nat; total : list nat; cur : Z;
  calls : list call }.

Definition set_item (p : pool) (x : nat) (i : option item) : pool :=
  mkPool (has_refresh p) (per_block p) (min_count p) (fun y => if Nat.eq_dec y x then i else items p y) (next p) (free p) (refreshed p) (total p) (cur p) (calls p).
Definition set_free (p : pool) (l : list nat) : pool :=
  mkPool (has_refresh p) (per_block p) (min_count p) (items p) (next p) l (refreshed p) (total p) (cur p) (calls p).
Definition set_refreshed (p : pool) (l : list nat) : pool :=
  mkPool (has_refresh p) (per_block p) (min_count p) (items p) (next p) (free p) l (total p) (cur p) (calls p).
Definition set_total (p : pool) (l : list nat) : pool :=
  mkPool (has_refresh p) (per_block p) (min_count p) (items p) (next p) (free p) (refreshed p) l (cur p) (calls p).
Definition set_cur (p : pool) (c : Z) : pool :=
  mkPool (has_refresh p) (per_block p) (min_count p) (items p) (next p) (free p) (refreshed p) (total p) c (calls p).
Definition add_call (p : pool) (c : call) : pool :=
  mkPool (has_refresh p) (per_block p) (min_count p) (items p) (next p) (free p) (refreshed p) (total p) (cur p) (calls p ++ [c]).

(** * The critical sections; access to a deleted item is undefined behaviour *)
(** np_memory.c:360-408 __np_memory_space_increase, one turn of the loop *)
Definition increase1 (p : pool) : pool :=
  let x := next p in
  let q := set_item p x (Some (mkItem false true 0)) in
  mkPool (has_refresh q) (per_block q) (min_count q) (items q) (S x) (free q ++ [x]) (refreshed q) (total q ++ [x]) (cur q) (calls q).
Fixpoint increase (n : nat) (p : pool) : pool := match n with O => p | S n' => increase n' (increase1 p) end.

(** np_memory.c:467-494 __np_memory_refresh_space *)
Definition refresh (p : pool) (x : nat) : outcome pool :=
  match items p x with
  | None => UB
  | Some i =>
      if negb (in_use i) && needs_refresh i
      then let q := set_item p x (Some (mkItem (in_use i) false 0)) in
           Ok (if has_refresh p then add_call q (OnRefresh x) else q)
      else Ok p
  end.
(** np_memory.c:685-724: pop from the refreshed list; pop from the free list *)
Definition pop_refreshed (p : pool) : option nat * pool :=
  match refreshed p with [] => (None, p) | x :: l => (Some x, set_refreshed p l) end.
Definition pop_free (p : pool) : option nat * pool :=
  match free p with [] => (None, p) | x :: l => (Some x, set_free p l) end.
(** np_memory.c:725-733: take the item if it is not in use *)
Definition try_take (p : pool) (x : nat) : outcome (bool * pool) :=
  match items p x with
  | None => UB
  | Some i => if in_use i then Ok (false, p) else Ok (true, set_item p x (Some (mkItem true (needs_refresh i) (ref_count i))))
  end.
Definition count_up (p : pool) (x : nat) : pool := add_call (set_cur p (u32 (cur p + 1))) (OnNew x).
(** np_memory.c:877-893, 1312-1338 np_memory_ref_obj *)
Definition ref_obj (p : pool) (x : nat) : outcome pool :=
  match items p x with
  | None => UB
  | Some i => Ok (set_item p x (Some (mkItem (in_use i) (needs_refresh i) (u32 (ref_count i + 1)))))
  end.
(** np_memory.c:896-934, 1394-1406: first half of np_memory_unref_obj, with the value returned *)
Definition dec_ref (p : pool) (x : nat) : outcome (Z * pool) :=
  match items p x with
  | None => UB
  | Some i => if ref_count i =? 0 then Abort
              else Ok (ref_count i - 1, set_item p x (Some (mkItem (in_use i) (needs_refresh i) (ref_count i - 1))))
  end.
(** np_memory.c:764-801 np_memory_free, up to the end of the access lock; [true]: recycled *)
Definition free_check (p : pool) (x : nat) : outcome (bool * pool) :=
  match items p x with
  | None => UB
  | Some i =>
      if (ref_count i =? 0) && in_use i
      then let p1 := add_call p (OnFree x) in
           Ok (true, if has_refresh p
                     then let p2 := set_item p1 x (Some (mkItem false true (ref_count i))) in set_free p2 (free p2 ++ [x])
                     else let p2 := set_item p1 x (Some (mkItem false (needs_refresh i) (ref_count i))) in set_refreshed p2 (refreshed p2 ++ [x]))
      else Ok (false, p)
  end.
Definition count_down (p : pool) : pool := set_cur p (u32 (cur p - 1)).
(** np_memory.c:640-662, 133-154: an unused item is removed from the list of all items and released *)
Definition delete (p : pool) (x : nat) : outcome pool :=
  match items p x with
  | None => UB
  | Some i => if in_use i then Abort else Ok (set_item (set_total p (remove Nat.eq_dec x (total p))) x None)
  end.

(** * Sequential use *)
(** np_memory.c:668-745 np_memory_new.  After [increase] the free list is not empty, so the item exists; the loop runs
    once unless a listed item is in use ([fuel] bounds the number of such items skipped). *)
Fixpoint memory_new (fuel : nat) (p : pool) : outcome (nat * pool) :=
  match fuel with
  | O => Abort
  | S fuel' =>
      obind (match pop_refreshed p with
             | (Some x, p1) => Ok (x, p1)
             | (None, p1) =>
                 match pop_free p1 with
                 | (Some x, p2) => obind (refresh p2 x) (fun p3 => Ok (x, p3))
                 | (None, p2) => match pop_free (increase 1 p2) with
                                 | (Some x, p3) => obind (refresh p3 x) (fun p4 => Ok (x, p4))
                                 | (None, _) => Abort
                                 end
                 end
             end) (fun '(x, p1) =>
      obind (try_take p1 x) (fun '(ok, p2) => if ok then Ok (x, count_up p2 x) else memory_new fuel' p2))
  end.
(** include/np_memory.h:203-210 np_new_obj: allocate, then take the first reference *)
Definition new_obj (p : pool) : outcome (nat * pool) :=
  obind (memory_new (S (length (free p) + length (refreshed p))) p) (fun '(x, p1) => obind (ref_obj p1 x) (fun p2 => Ok (x, p2))).
(** np_memory.c:764-801, 1394-1411 *)
Definition memory_free (p : pool) (x : nat) : outcome pool :=
  obind (free_check p x) (fun '(rm, p1) => Ok (if rm then count_down p1 else p1)).
Definition unref_obj (p : pool) (x : nat) : outcome (Z * pool) :=
  obind (dec_ref p x) (fun '(n, p1) => obind (memory_free p1 x) (fun p2 => Ok (n, p2))).

(** np_memory.c:621-666 __np_memory_space_decrease *)
Fixpoint decrease (n : nat) (p : pool) : outcome pool :=
  match n with
  | O => Ok p
  | S n' =>
      let '(o, p1) := match pop_free p with (Some x, q) => (Some x, q) | (None, q) => pop_refreshed q end in
      match o with
      | Some x => obind (delete p1 x) (decrease n')
      | None => Ok p1
      end
  end.
(** np_memory.c:543-581: never below the minimum; [wish] stands for the statistics *)
Definition decrease_necessary (wish : bool) (p : pool) : bool :=
  (Z.of_nat (min_count p + per_block p) <=? Z.of_nat (length (free p) + length (refreshed p)) + cur p) && wish.
Fixpoint refresh_all (l : list nat) (p : pool) : outcome pool :=
  match l with
  | [] => Ok p
  | x :: l' => obind (refresh p x) (fun p1 => refresh_all l' (set_refreshed p1 (refreshed p1 ++ [x])))
  end.
(** np_memory.c:817-874 _np_memory_job_memory_management for this container *)
Definition management (wish : bool) (p : pool) : outcome pool :=
  if has_refresh p
  then obind (if decrease_necessary wish p then decrease (per_block p) p else Ok p) (fun p1 => refresh_all (free p1) (set_free p1 []))
  else Ok p.
(** np_memory.c:410-465 np_memory_register_type (per_block = 0 with min_count > 0 would not terminate) *)
Fixpoint blocks (fuel i : nat) (p : pool) : pool :=
  match fuel with
  | O => p
  | S fuel' => if (per_block p * i <? min_count p)%nat then blocks fuel' (S i) (increase (per_block p) p) else p
  end.
Definition register (refresh : bool) (block mn : nat) : pool :=
  blocks mn 0 (mkPool refresh block mn (fun _ => None) 0 [] [] [] 0 []).

Inductive op := New | Ref (x : nat) | Unref (x : nat) | Manage (wish : bool).
(** one operation; the object returned by New *)
Definition apply (p : pool) (o : op) : outcome (option nat * pool) :=
  match o with
  | New => obind (new_obj p) (fun '(x, q) => Ok (Some x, q))
  | Ref x => obind (ref_obj p x) (fun q => Ok (None, q))
  | Unref x => obind (unref_obj p x) (fun '(_, q) => Ok (None, q))
  | Manage w => obind (management w p) (fun q => Ok (None, q))
  end.

(** * Concurrent use: every lock scope is one atomic step *)
Inductive pc :=
| Idle
| NewRefresh (x : nat)      (* popped from the free list *)
| NewCheck (x : nat)        (* ready to be taken *)
| NewCount (x : nat)        (* taken, to be counted *)
| NewRef (x : nat)          (* returned by np_memory_new, to be referenced *)
| UnFree (x : nat)          (* reference count decremented, np_memory_free to be run *)
| UnCount                   (* recycled, to be counted *)
| MWork (l : list nat)      (* management: items taken off the free list *)
| MAppend (x : nat) (l : list nat)
| MDelete (x : nat).
(** [holds]: which thread owns a reference to which object *)
Record conc := mkConc { cpool : pool; pcs : nat -> pc; holds : list (nat * nat) }.
Definition set_pc (s : conc) (p : pool) (t : nat) (c : pc) : conc :=
  mkConc p (fun u => if Nat.eq_dec u t then c else pcs s u) (holds s).
Definition set_holds (s : conc) (h : list (nat * nat)) : conc := mkConc (cpool s) (pcs s) h.

(** what a thread may start when it is idle: allocate (from the refreshed list, the free list, or new memory), use
    references it owns, hand a reference to another thread, run the management job *)
Inductive act := ANewRefreshed | ANewFree | ANewMem | ARef (x : nat) | AUnref (x : nat) | AGive (x u : nat) | APop (n : nat) | ADelFree | ADelRefreshed | AGo.

Definition pair_dec : forall a b : nat * nat, {a = b} + {a <> b}.
Proof. decide equality; apply Nat.eq_dec. Defined.
Definition owns (s : conc) (t x : nat) : bool := if in_dec pair_dec (t, x) (holds s) then true else false.
Fixpoint drop1 (h : list (nat * nat)) (e : nat * nat) : list (nat * nat) :=
  match h with [] => [] | a :: h' => if pair_dec a e then h' else a :: drop1 h' e end.

(** [None]: the step is not possible here; [AGo] continues an operation that was started *)
Definition step (s : conc) (t : nat) (a : act) : option (outcome conc) :=
  let p := cpool s in
  match pcs s t, a with
  | Idle, ANewRefreshed => match pop_refreshed p with (Some x, q) => Some (Ok (set_pc s q t (NewCheck x))) | _ => None end
  | Idle, ANewFree => match pop_free p with (Some x, q) => Some (Ok (set_pc s q t (NewRefresh x))) | _ => None end
  | Idle, ANewMem => Some (Ok (set_pc s (increase1 p) t Idle))
  | Idle, ARef x => if owns s t x then Some (obind (ref_obj p x) (fun q => Ok (set_holds (set_pc s q t Idle) ((t, x) :: holds s)))) else None
  | Idle, AUnref x => if owns s t x then Some (obind (dec_ref p x) (fun '(_, q) => Ok (set_holds (set_pc s q t (UnFree x)) (drop1 (holds s) (t, x))))) else None
  | Idle, AGive x u => if owns s t x then Some (Ok (set_holds s ((u, x) :: drop1 (holds s) (t, x)))) else None
  | Idle, APop n => Some (Ok (set_pc s (set_free p (skipn n (free p))) t (MWork (firstn n (free p)))))
  | Idle, ADelFree => match pop_free p with (Some x, q) => Some (Ok (set_pc s q t (MDelete x))) | _ => None end
  | Idle, ADelRefreshed => match pop_refreshed p with (Some x, q) => Some (Ok (set_pc s q t (MDelete x))) | _ => None end
  | NewRefresh x, AGo => Some (obind (refresh p x) (fun q => Ok (set_pc s q t (NewCheck x))))
  | NewCheck x, AGo => Some (obind (try_take p x) (fun '(b, q) => Ok (set_pc s q t (if b then NewCount x else Idle))))
  | NewCount x, AGo => Some (Ok (set_pc s (count_up p x) t (NewRef x)))
  | NewRef x, AGo => Some (obind (ref_obj p x) (fun q => Ok (set_holds (set_pc s q t Idle) ((t, x) :: holds s))))
  | UnFree x, AGo => Some (obind (free_check p x) (fun '(b, q) => Ok (set_pc s q t (if b then UnCount else Idle))))
  | UnCount, AGo => Some (Ok (set_pc s (count_down p) t Idle))
  | MWork [], AGo => Some (Ok (set_pc s p t Idle))
  | MWork (x :: l), AGo => Some (obind (refresh p x) (fun q => Ok (set_pc s q t (MAppend x l))))
  | MAppend x l, AGo => Some (Ok (set_pc s (set_refreshed p (refreshed p ++ [x])) t (MWork l)))
  | MDelete x, AGo => Some (obind (delete p x) (fun q => Ok (set_pc s q t Idle)))
  | _, _ => None
  end.
Definition start (p : pool) : conc := mkConc p (fun _ => Idle) [].
Fixpoint run (s : conc) (l : list (nat * act)) : option (outcome conc) :=
  match l with
  | [] => Some (Ok s)
  | (t, a) :: l' => match step s t a with
                    | Some (Ok s') => run s' l'
                    | r => r
                    end
  end.
