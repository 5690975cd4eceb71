(** The key cache: src/np_keycache.c.  Every function below runs under the lock of the module, so each is one atomic
    step.  Not modelled: the content of a key (see Key_Model.v), time stamps, searches by node details
    (np_keycache.c:157-230) and log messages. *)
From Verif Require Import Base Dhkey_Model Rbtree_Model.

(** An entry: the id and the object (np_key_t).  np_key.c:47-52 _np_key_cmp *)
Definition entry := (key * Z)%type.
Definition entry_cmp (a b : entry) : Z := np_dhkey_cmp (fst a) (fst b).

(** np_keycache.c:30-37: the tree and _check_state_iterator; [refs] are the reference counters of the objects, [fresh]
    is the next object to be handed out by np_new_obj (addresses of freed objects are not reused). *)
Record cache := mkCache { entries : tree entry; refs : Z -> Z; fresh : Z; check_from : key }.

(** np_memory.c: np_ref_obj and np_unref_obj, as far as the counter is concerned (see Memory_Model.v) *)
Definition ref (o d : Z) (r : Z -> Z) : Z -> Z := fun x => if x =? o then r x + d else r x.

(** np_keycache.c:48-66 _np_keycache_init *)
Definition np_keycache_init : cache := mkCache Leaf (fun _ => 0) 0 (repeat 0 8).

Definition search (c : cache) (k : key) : option Z :=
  match find entry_cmp (k, 0) (entries c) with Some e => Some (snd e) | None => None end.

(** np_keycache.c:362-375 _np_keycache_add: the result of RB_INSERT is ignored *)
Definition np_keycache_add (c : cache) (k : key) (o : Z) : outcome cache :=
  obind (insert entry_cmp (k, o) (entries c)) (fun r =>
  Ok (mkCache (fst r) (ref o 1 (refs c)) (fresh c) (check_from c))).

(** np_keycache.c:126-138 _np_keycache_create; np_new_obj leaves one reference for the caller *)
Definition np_keycache_create (c : cache) (k : key) : outcome (cache * Z) :=
  let o := fresh c in
  obind (np_keycache_add (mkCache (entries c) (ref o 1 (refs c)) (o + 1) (check_from c)) k o) (fun c' => Ok (c', o)).

(** np_keycache.c:82-100 _np_keycache_find_or_create *)
Definition np_keycache_find_or_create (c : cache) (k : key) : outcome (cache * Z) :=
  match search c k with
  | None => np_keycache_create c k
  | Some o => Ok (mkCache (entries c) (ref o 1 (refs c)) (fresh c) (check_from c), o)
  end.

(** np_keycache.c:103-124 _np_keycache_exists (without the copy of the key, which takes and gives back a reference) *)
Definition np_keycache_exists (c : cache) (k : key) : bool := match search c k with Some _ => true | None => false end.

(** np_keycache.c:140-152 _np_keycache_find *)
Definition np_keycache_find (c : cache) (k : key) : cache * option Z :=
  match search c k with
  | None => (c, None)
  | Some o => (mkCache (entries c) (ref o 1 (refs c)) (fresh c) (check_from c), Some o)
  end.

(** np_keycache.c:331-343 _np_keycache_get_all *)
Definition np_keycache_get_all (c : cache) : cache * list entry :=
  let es := elements (entries c) in
  (mkCache (entries c) (fold_left (fun r e => ref (snd e) 1 r) es (refs c)) (fresh c) (check_from c), es).

(** np_keycache.c:345-360 _np_keycache_remove *)
Definition np_keycache_remove (c : cache) (k : key) : outcome (cache * option Z) :=
  obind (find_remove entry_cmp (k, 0) (entries c)) (fun r =>
  match snd r with
  | None => Ok (c, None)
  | Some e => Ok (mkCache (fst r) (ref (snd e) (-1) (refs c)) (fresh c) (check_from c), Some (snd e))
  end).

(** np_settings.h: _NP_KEYCACHE_ITERATION_STEPS *)
Definition iteration_steps : Z := 11.
(** np_keycache.c:240-281: the loop of _np_keycache_exists_state.  [it] is _check_state_iterator, [on] is
    process_state_check; the result is the list tmp_to_transition and the new iterator. *)
Fixpoint check_loop (ks : list key) (it : key) (on : bool) (i : Z) : list key * key :=
  match ks with
  | [] => ([], if i <? iteration_steps then repeat 0 8 else it)
  | k :: rest =>
      let it1 := if np_dhkey_equal (repeat 0 8) it then k else it in
      let hit := (np_dhkey_equal k it1 || on) && (i <? iteration_steps) in
      let i1 := if hit then i + 1 else i in
      let now := if hit then [k] else [] in
      if iteration_steps <=? i1 then (now, k)
      else let r := check_loop rest it1 (hit || on) i1 in (now ++ fst r, snd r)
  end.
(** np_keycache.c:232-306 _np_keycache_exists_state: one run of the periodic job.  The result is the list of the keys that
    get a noop event.  (The events run after the lock is given back; what they do is in Key_Model.v.) *)
Definition np_keycache_exists_state (c : cache) : cache * list key :=
  let r := check_loop (map fst (elements (entries c))) (check_from c) false 0 in
  (mkCache (entries c) (refs c) (fresh c) (snd r), fst r).

(** ** Searching and sorting lists of keys.  [A] are the objects in the list, [dh] gives their key. *)
Section Keys.
  Context {A : Type} (dh : A -> key).

  (** np_keycache.c:444-457: the loop of _np_keycache_find_closest_key_to *)
  Fixpoint closest_loop (target : key) (l : list A) (first_run : bool) (min_dif : key) (min_key : option A) : option A :=
    match l with
    | [] => min_key
    | x :: l' =>
        let dif := np_dhkey_distance target (dh x) in
        if first_run || (np_dhkey_cmp dif min_dif <=? 0) then closest_loop target l' false dif (Some x)
        else closest_loop target l' false min_dif min_key
    end.
  (** np_keycache.c:431-460 _np_keycache_find_closest_key_to *)
  Definition find_closest_key_to (l : list A) (target : key) : option A :=
    match l with [] => None | _ => closest_loop target l true (repeat 0 8) None end.

  (** np_keycache.c:483-497: whether iter1 and iter2 are exchanged *)
  Definition cpm_before (target : key) (y x : A) : bool :=
    let pmatch1 := np_dhkey_index target (dh x) in
    let pmatch2 := np_dhkey_index target (dh y) in
    if pmatch2 >? pmatch1 then true
    else if pmatch1 =? pmatch2 then np_dhkey_cmp (np_dhkey_distance (dh y) target) (np_dhkey_distance (dh x) target) <? 0
    else false.
  (** np_keycache.c:478-498: the inner loop: [x] is the value at iter1, [l] the values from iter2 on *)
  Fixpoint exchange (before : A -> A -> bool) (x : A) (l : list A) : A * list A :=
    match l with
    | [] => (x, [])
    | y :: l' =>
        if before y x then let r := exchange before y l' in (fst r, x :: snd r)
        else let r := exchange before x l' in (fst r, y :: snd r)
    end.
  (** np_keycache.c:474-499: the outer loop; [n] is the number of values from iter1 on *)
  Fixpoint exchange_all (before : A -> A -> bool) (n : nat) (l : list A) : list A :=
    match n, l with
    | S n', x :: l' => let r := exchange before x l' in fst r :: exchange_all before n' (snd r)
    | _, _ => l
    end.
  (** np_keycache.c:465-500 _np_keycache_sort_keys_cpm *)
  Definition sort_keys_cpm (l : list A) (target : key) : list A :=
    if (length l <? 2)%nat then l else exchange_all (cpm_before target) (length l) l.

  (** np_keycache.c:526-528 *)
  Definition kd_before (target : key) (y x : A) : bool :=
    np_dhkey_cmp (np_dhkey_distance (dh y) target) (np_dhkey_distance (dh x) target) <? 0.
  (** np_keycache.c:524-538: the inner loop: the first smaller value changes places with [x]; [None]: there is none *)
  Fixpoint swap_first (before : A -> A -> bool) (x : A) (l : list A) : option (A * list A) :=
    match l with
    | [] => None
    | y :: l' =>
        if before y x then Some (y, x :: l')
        else match swap_first before x l' with Some (z, r) => Some (z, y :: r) | None => None end
    end.
  (** np_keycache.c:519-540: one pass, and whether there was an exchange; [n] is the number of values from curr on *)
  Fixpoint pass (before : A -> A -> bool) (n : nat) (l : list A) : list A * bool :=
    match n, l with
    | S n', x :: l' =>
        match swap_first before x l' with
        | Some (y, r) => (y :: fst (pass before n' r), true)
        | None => let p := pass before n' l' in (x :: fst p, snd p)
        end
    | _, _ => (l, false)
    end.
  (** np_keycache.c:515-541: the passes; [None]: still running after [fuel] passes *)
  Fixpoint passes (before : A -> A -> bool) (fuel : nat) (l : list A) : option (list A) :=
    match fuel with
    | O => None
    | S f => let p := pass before (length l) l in if snd p then passes before f (fst p) else Some (fst p)
    end.
  (** np_keycache.c:505-542 _np_keycache_sort_keys_kd *)
  Definition sort_keys_kd (fuel : nat) (l : list A) (target : key) : option (list A) :=
    if (length l <? 2)%nat then Some l else passes (kd_before target) fuel l.
End Keys.
