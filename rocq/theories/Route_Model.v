(** Routing table and leafset: src/np_route.c, and the functions of src/core/np_comp_node.c that keep them up to date.
    Every function of np_route.c runs under the lock of the module, so each is one atomic step.  Not modelled: log
    messages, _np_route_destroy, _np_route_clear and _np_route_leafset_clear (np_route.c:705-755), and the unused _np_route_neighbour_lookup (np_route.c:405-447).
    Latency and success average of a node are doubles in C; here they are integers in units of 10^-13 (seconds or
    parts of one), without rounding.  They change all the time, so every call gets its own [lat] and [suc]. *)
From Verif Require Import Base Dhkey_Model Keycache_Model.

(** A neighbour: its id and its object (np_key_t) *)
Notation node := (key * Z)%type.

(** np_settings.h:325-327 *)
Definition MAX_ROW : Z := 64.
Definition MAX_COL : Z := 16.
Definition MAX_ENTRY : Z := 3.
(** NP_PI / 1000 and BAD_LINK (np_settings.h:247) in units of 10^-13 *)
Definition reasonable : Z := 31415926535.
Definition bad_link : Z := 2500000000000.
Definition one : Z := 10000000000000.

(** np_route.c:36-53.  [in_route] and [in_leafset] count the references ref_route_inroute and ref_route_inleafset of an
    object.  [table] is only read and written at the indexes 0 .. NP_ROUTES_TABLE_SIZE - 1. *)
Record route := mkRoute {
  my : key; table : Z -> option node; route_count : Z;
  left : list node; right : list node; leafset_size : Z; lrange : key; rrange : key; left_count : Z; right_count : Z;
  in_route : Z -> Z; in_leafset : Z -> Z }.

(** np_route.c:87-120 _np_route_init *)
Definition np_route_init (me : key) (size : Z) : route :=
  mkRoute me (fun _ => None) 0 [] [] (u16 size) me me 0 0 (fun _ => 0) (fun _ => 0).

(** ** The table *)
(** The index of a slot, e.g. np_route.c:791 *)
Definition slot (row col entry : Z) : Z := MAX_ENTRY * (col + MAX_COL * row) + entry.
(** np_route.c:786-791: the first slot for a key *)
Definition first_slot (me k : key) : outcome Z :=
  let i := np_dhkey_index me k in
  if i <? MAX_ROW then match np_dhkey_hexalpha_at k i with Some j => Ok (slot i j 0) | None => UB end else Abort.
(** A for loop over 0 .. n-1 *)
Definition upto (n : Z) : list Z := map Z.of_nat (seq 0 (Z.to_nat n)).

(** np_route.c:349-371 _np_route_get_table *)
Definition some_list {A} (o : option A) : list A := match o with Some a => [a] | None => [] end.
Definition np_route_get_table (r : route) : list node :=
  flat_map (fun i => flat_map (fun j => flat_map (fun k => some_list (table r (slot i j k))) (upto MAX_ENTRY)) (upto MAX_COL)) (upto MAX_ROW).

(** np_route.c:377-403 _np_route_row_lookup *)
Definition np_route_row_lookup (r : route) (k : key) : outcome (list node) :=
  let i := np_dhkey_index (my r) k in
  if i <? MAX_ROW then
    Ok (filter (fun x => negb (np_dhkey_equal (fst x) k)) (flat_map (fun j => some_list (table r (slot i j 0))) (upto MAX_COL)))
  else Abort.

(** np_route.c:798-840: what the loop of _np_route_update finds for a joining node: a free slot, the node itself, or
    neither, with the slowest node seen *)
Inductive scan := Free (s : Z) | Present | Full (slowest : option (Z * node)).
Fixpoint join_scan (t : Z -> option node) (lat : Z -> Z) (n : node) (slots : list Z) (slowest : option (Z * node)) : scan :=
  match slots with
  | [] => Full slowest
  | s :: rest =>
      match t s with
      | None => Free s
      | Some x =>
          if np_dhkey_equal (fst x) (fst n) then Present
          else match slowest with
               | None => join_scan t lat n rest (Some (s, x))
               | Some (p, y) => if lat (snd x) >? lat (snd y) then join_scan t lat n rest (Some (s, x))
                                else join_scan t lat n rest slowest
               end
      end
  end.
(** np_route.c:862-875: the loop for a leaving node *)
Fixpoint leave_scan (t : Z -> option node) (k : key) (slots : list Z) : option Z :=
  match slots with
  | [] => None
  | s :: rest => match t s with
                 | Some x => if np_dhkey_equal (fst x) k then Some s else leave_scan t k rest
                 | None => leave_scan t k rest
                 end
  end.
Definition set_slot (t : Z -> option node) (s : Z) (x : option node) : Z -> option node := fun i => if i =? s then x else t i.
Definition with_table (r : route) (t : Z -> option node) (c : Z) (f : Z -> Z) : route :=
  mkRoute (my r) t c (left r) (right r) (leafset_size r) (lrange r) (rrange r) (left_count r) (right_count r) f (in_leafset r).

(** np_route.c:762-907 _np_route_update; the result is the new state, *deleted and *added.  Both are NULL before the
    call (np_comp_node.c:628, 865). *)
Definition np_route_update (r : route) (n : node) (joined : bool) (lat : Z -> Z) : outcome (route * option node * option node) :=
  if np_dhkey_equal (my r) (fst n) then Ok (r, None, None)
  else obind (first_slot (my r) (fst n)) (fun index =>
  let slots := map (fun k => index + k) (upto MAX_ENTRY) in
  if joined then
    match join_scan (table r) lat n slots None with
    | Free s => Ok (with_table r (set_slot (table r) s (Some n)) (u16 (route_count r + 1)) (ref (snd n) 1 (in_route r)), None, Some n)
    | Present => Ok (r, None, None)
    | Full None => UB
    | Full (Some (pick, x)) =>
        if lat (snd x) - lat (snd n) >? reasonable then
          Ok (with_table r (set_slot (table r) pick (Some n)) (u16 (u16 (route_count r + 1) - 1))
                (ref (snd x) (-1) (ref (snd n) 1 (in_route r))), Some x, Some n)
        else Ok (r, None, None)
    end
  else
    match leave_scan (table r) (fst n) slots with
    | Some s => Ok (with_table r (set_slot (table r) s None) (u16 (route_count r - 1)) (ref (snd n) (-1) (in_route r)), Some n, None)
    | None => Ok (r, None, None)
    end).

(** np_route.c:909-912 _np_get_route_count, 921-931 _np_route_count_neighbors, 914-919 _np_route_has_connection *)
Definition np_get_route_count (r : route) : Z := route_count r.
Definition np_route_count_neighbors (r : route) : Z := u16 (left_count r + right_count r).
Definition np_route_has_connection (r : route) : bool := np_get_route_count r + np_route_count_neighbors r >? 0.

(** ** The leafset *)
(** np_list.h sll_find and sll_remove with _np_key_cmp *)
Fixpoint leaf_find (l : list node) (n : node) : option node :=
  match l with [] => None | x :: l' => if np_dhkey_cmp (fst x) (fst n) =? 0 then Some x else leaf_find l' n end.
Fixpoint leaf_remove (l : list node) (n : node) : list node :=
  match l with [] => [] | x :: l' => if np_dhkey_cmp (fst x) (fst n) =? 0 then l' else x :: leaf_remove l' n end.
(** np_list.h sll_last *)
Definition leaf_last (l : list node) (d : key) : key := match rev l with x :: _ => fst x | [] => d end.

(** np_route.c:256-275 and 276-295: one half of the leafset takes a new node: the new list, deleted_from and whether it was
    added.  [near] is the second condition of the if. *)
Definition half_add (me : key) (size : Z) (l : list node) (n : node) (near : bool) : outcome (list node * option node * bool) :=
  let add := (Z.of_nat (length l) <? size) || near in
  obind (if add then match sort_keys_kd fst (S (S (length l) * S (length l))) (n :: l) me with Some l' => Ok l' | None => UB end else Ok l)
    (fun l' => if Z.of_nat (length l') >? size then Ok (removelast l', match rev l' with x :: _ => Some x | [] => None end, add)
               else Ok (l', None, add)).

(** np_route.c:667-684 _np_route_leafset_range_update, and 327-330: the counters *)
Definition with_leafset (r : route) (l rt : list node) (changed : bool) (f : Z -> Z) : route :=
  mkRoute (my r) (table r) (route_count r) l rt (leafset_size r)
    (if changed then leaf_last l (my r) else lrange r) (if changed then leaf_last rt (my r) else rrange r)
    (u16 (Z.of_nat (length l))) (u16 (Z.of_nat (length rt))) (in_route r) f.

(** np_route.c:185-332 _np_route_leafset_update; both *deleted and *added are NULL before the call *)
Definition np_route_leafset_update (r : route) (n : node) (joined : bool) : outcome (route * option node * option node) :=
  if np_dhkey_cmp (fst n) (my r) =? 0 then Ok (r, None, None)
  else
  let find_right := leaf_find (right r) n in
  let find_left := leaf_find (left r) n in
  if negb joined then
    match find_right, find_left with
    | Some _, _ => Ok (with_leafset r (left r) (leaf_remove (right r) n) true (ref (snd n) (-1) (in_leafset r)), Some n, None)
    | None, Some _ => Ok (with_leafset r (leaf_remove (left r) n) (right r) true (ref (snd n) (-1) (in_leafset r)), Some n, None)
    | None, None => Ok (with_leafset r (left r) (right r) false (in_leafset r), None, None)
    end
  else
    match find_right, find_left with
    | None, None =>
        let on_right := np_dhkey_between (fst n) (my r) (np_dhkey_add (my r) dhkey_half) true in
        obind (if on_right
               then half_add (my r) (leafset_size r) (right r) n (np_dhkey_between (fst n) (my r) (rrange r) false)
               else half_add (my r) (leafset_size r) (left r) n (np_dhkey_between (fst n) (lrange r) (my r) false))
          (fun h =>
           let l' := fst (fst h) in
           let both := match snd (fst h) with Some d => snd h && (np_dhkey_cmp (fst d) (fst n) =? 0) | None => false end in
           let deleted := if both then None else snd (fst h) in
           let added := if both then None else if snd h then Some n else None in
           let changed := match deleted, added with None, None => false | _, _ => true end in
           let f := match added with Some a => ref (snd a) 1 (in_leafset r) | None => in_leafset r end in
           let f := match deleted with Some d => ref (snd d) (-1) f | None => f end in
           Ok (if on_right then with_leafset r (left r) l' changed f else with_leafset r l' (right r) changed f, deleted, added))
    | _, _ => Ok (with_leafset r (left r) (right r) false (in_leafset r), None, None)
    end.

(** np_route.c:689-703 _np_route_neighbors *)
Definition np_route_neighbors (r : route) : outcome (list node) :=
  let l := left r ++ right r in
  match sort_keys_kd fst (S (length l * length l)) l (my r) with Some l' => Ok l' | None => UB end.

(** ** Looking for the next hop *)
(** np_route.c:531-539: the first entry of the slots with a link that is not bad *)
Fixpoint first_good (t : Z -> option node) (suc : Z -> Z) (slots : list Z) : option node :=
  match slots with
  | [] => None
  | s :: rest => match t s with
                 | Some x => if suc (snd x) >? bad_link then Some x else first_good t suc rest
                 | None => first_good t suc rest
                 end
  end.
(** np_route.c:552-553 *)
Definition metric (lat suc : Z -> Z) (x : node) : Z := one - suc (snd x) + lat (snd x).
(** np_route.c:544-559: a better entry of the same slots *)
Fixpoint best_of (t : Z -> option node) (lat suc : Z -> Z) (slots : list Z) (cur : node) : node :=
  match slots with
  | [] => cur
  | s :: rest =>
      match t s with
      | Some x => if negb (np_dhkey_equal (fst x) (fst cur)) && (metric lat suc cur >? metric lat suc x) then best_of t lat suc rest x
                  else best_of t lat suc rest cur
      | None => best_of t lat suc rest cur
      end
  end.
(** np_route.c:599-616: the usable entries of a row *)
Definition good_in_row (t : Z -> option node) (suc : Z -> Z) (i : Z) : list node :=
  filter (fun x => suc (snd x) >? bad_link)
    (flat_map (fun j => flat_map (fun k => some_list (t (slot i j k))) (upto MAX_ENTRY)) (upto MAX_COL)).
(** np_route.c:596-619: rows upwards until there is an entry *)
Fixpoint upwards (t : Z -> option node) (suc : Z -> Z) (i : nat) : list node :=
  match good_in_row t suc (Z.of_nat i) with
  | [] => match i with O => [] | S i' => upwards t suc i' end
  | l => l
  end.

(** np_route.c:467-659 _np_route_lookup *)
Definition np_route_lookup (r : route) (k : key) (count : Z) (lat suc : Z -> Z) : outcome (list node) :=
  if (count =? 1) && np_dhkey_between k (lrange r) (rrange r) true
  then Ok (some_list (find_closest_key_to fst (right r ++ left r) k))
  else obind (first_slot (my r) k) (fun index =>
  let slots := map (fun e => index + e) (upto MAX_ENTRY) in
  match first_good (table r) suc slots, 1 <=? count with
  | Some x, true => Ok [best_of (table r) lat suc slots x]
  | _, _ =>
      let key_list := if count =? 0 then [(my r, -1)] else upwards (table r) suc (Z.to_nat (np_dhkey_index (my r) k)) in
      if count =? 1 then Ok (some_list (find_closest_key_to fst key_list k))
      else if (2 <=? Z.of_nat (length key_list)) then
        Ok (some_list (hd_error (sort_keys_cpm fst key_list k)))
      else Ok (some_list (hd_error key_list))
  end).

(** ** The callers: a node knows whether it is in the table (is_in_routing_table) and in the leafset (is_in_leafset) *)
Record hood := mkHood { rt : route; flag : Z -> bool; leaf_flag : Z -> bool }.
Definition set_flag (f : Z -> bool) (o : option node) (b : bool) : Z -> bool :=
  match o with Some x => fun i => if i =? snd x then b else f i | None => f end.

(** np_comp_node.c:858-884: a node with a stable connection goes into the table *)
Definition node_enters_table (h : hood) (n : node) (lat : Z -> Z) : outcome hood :=
  if flag h (snd n) then Ok h
  else obind (np_route_update (rt h) n true lat) (fun p =>
       Ok (mkHood (fst (fst p)) (set_flag (set_flag (flag h) (snd p) true) (snd (fst p)) false) (leaf_flag h))).
(** np_comp_node.c:617-649 __np_node_remove_from_routing_table *)
Definition node_leaves_table (h : hood) (n : node) (lat : Z -> Z) : outcome hood :=
  if flag h (snd n) then
    obind (np_route_update (rt h) n false lat) (fun p => Ok (mkHood (fst (fst p)) (set_flag (flag h) (snd (fst p)) false) (leaf_flag h)))
  else Ok h.
(** np_comp_node.c:541-578 __np_node_add_to_leafset *)
Definition node_enters_leafset (h : hood) (n : node) : outcome hood :=
  if leaf_flag h (snd n) then Ok h
  else obind (np_route_leafset_update (rt h) n true) (fun p =>
       Ok (mkHood (fst (fst p)) (flag h) (set_flag (set_flag (leaf_flag h) (snd p) true) (snd (fst p)) false))).
(** np_comp_node.c:582-615 __np_node_remove_from_routing_leafset *)
Definition node_leaves_leafset (h : hood) (n : node) : outcome hood :=
  if leaf_flag h (snd n) then
    obind (np_route_leafset_update (rt h) n false) (fun p => Ok (mkHood (fst (fst p)) (flag h) (set_flag (leaf_flag h) (snd (fst p)) false)))
  else Ok h.

(** ** Threads.  The handlers of different nodes run at the same time on several threads; the handlers of one node run one
    after the other (they hold the lock of its key, np_key.c _np_key_handle_event).  Each call into np_route.c and each
    write of a flag is one step; between two steps of a handler other threads may run. *)
Inductive action := AJoin (n : node) | ALeave (n : node) | ASet (n : node) (b : bool).
Record sched := mkSched { srt : route; sflag : Z -> bool; threads : list (node * list action) }.
(** [CEnter n], [CLeave n]: a handler of [n] starts and reads the flag (np_comp_node.c:861, 627); [CGo i lat]: thread [i]
    runs its next step, with the latencies of that moment *)
Inductive choice := CEnter (n : node) | CLeave (n : node) | CGo (i : nat) (lat : Z -> Z).
Definition busy (ths : list (node * list action)) (n : node) : bool := existsb (fun th => snd (fst th) =? snd n) ths.
(** np_comp_node.c:868-884 and 629-633: the writes after the call *)
Definition writes (deleted added : option node) : list action :=
  match added with Some x => [ASet x true] | None => [] end ++ match deleted with Some x => [ASet x false] | None => [] end.
Definition replace_thread (ths : list (node * list action)) (i : nat) (n : node) (acts : list action) : list (node * list action) :=
  firstn i ths ++ match acts with [] => [] | _ => [(n, acts)] end ++ skipn (S i) ths.
Definition sched_step (s : sched) (c : choice) : outcome sched :=
  match c with
  | CEnter n => if busy (threads s) n || sflag s (snd n) then Ok s else Ok (mkSched (srt s) (sflag s) (threads s ++ [(n, [AJoin n])]))
  | CLeave n => if busy (threads s) n || negb (sflag s (snd n)) then Ok s else Ok (mkSched (srt s) (sflag s) (threads s ++ [(n, [ALeave n])]))
  | CGo i lat =>
      match nth_error (threads s) i with
      | Some (n, AJoin x :: acts) => obind (np_route_update (srt s) x true lat) (fun p =>
          Ok (mkSched (fst (fst p)) (sflag s) (replace_thread (threads s) i n (writes (snd (fst p)) (snd p) ++ acts))))
      | Some (n, ALeave x :: acts) => obind (np_route_update (srt s) x false lat) (fun p =>
          Ok (mkSched (fst (fst p)) (sflag s) (replace_thread (threads s) i n (writes (snd (fst p)) (snd p) ++ acts))))
      | Some (n, ASet x b :: acts) => Ok (mkSched (srt s) (set_flag (sflag s) (Some x) b) (replace_thread (threads s) i n acts))
      | _ => Ok s
      end
  end.
