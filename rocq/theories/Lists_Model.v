(** Pointer level model of the generated list containers of include/util/np_list.h:
    SLL (675-861), DLL (418-525) and PLL (155-310).
    Memory maps addresses to nodes; address 0 is NULL; reading or writing NULL or a freed node is
    [UB].  [calloc] is modelled by passing the address of the new node, which must be unused
    (allocation failure is not modelled).  Loops carry fuel, running out of fuel is [UB].
    The SLL node has no blink in C; here the field is present and never read. *)
From Verif Require Import Base.

Section Lists.
  Context {A : Type}.

  (** include/util/np_list.h:127-131, 636-639 *)
  Record node := mkNode { flink : nat; blink : nat; val : A }.
  (** include/util/np_list.h:122-126, 631-635 *)
  Record hdr := mkHdr { size : Z; first : nat; last_ : nat }.
  Definition mem := nat -> option node.

  Definition mset (m : mem) (a : nat) (n : node) : mem := fun k => if Nat.eqb k a then Some n else m k.
  Definition get (m : mem) (a : nat) : outcome node :=
    if Nat.eqb a 0 then UB else match m a with Some n => Ok n | None => UB end.
  Definition set_flink (m : mem) (a x : nat) : outcome mem :=
    obind (get m a) (fun n => Ok (mset m a (mkNode x (blink n) (val n)))).
  Definition set_blink (m : mem) (a x : nat) : outcome mem :=
    obind (get m a) (fun n => Ok (mset m a (mkNode (flink n) x (val n)))).
  Definition set_val (m : mem) (a : nat) (x : A) : outcome mem :=
    obind (get m a) (fun n => Ok (mset m a (mkNode (flink n) (blink n) x))).
  Definition free (m : mem) (a : nat) : outcome mem :=
    obind (get m a) (fun _ => Ok (fun k => if Nat.eqb k a then None else m k)).
  Definition inc (s : Z) : Z := u32 (s + 1).
  Definition dec (s : Z) : Z := u32 (s - 1).

  (** include/util/np_list.h:159-165, 419-425, 746-752 *)
  Definition list_init : hdr := mkHdr 0 0 0.

  (* ------------------------------------------------------------------ SLL *)

  (** include/util/np_list.h:768-782; [a] is the fresh node *)
  Definition sll_append (m : mem) (h : hdr) (a : nat) (x : A) : outcome (mem * hdr) :=
    let m1 := mset m a (mkNode 0 0 x) in
    if Nat.eqb (first h) 0 then Ok (m1, mkHdr (inc (size h)) a a)
    else obind (set_flink m1 (last_ h) a) (fun m2 => Ok (m2, mkHdr (inc (size h)) (first h) a)).

  (** include/util/np_list.h:783-794 *)
  Definition sll_prepend (m : mem) (h : hdr) (a : nat) (x : A) : outcome (mem * hdr) :=
    let m1 := mset m a (mkNode (first h) 0 x) in
    Ok (m1, mkHdr (inc (size h)) a (if Nat.eqb (last_ h) 0 then a else last_ h)).

  (** include/util/np_list.h:753-767 *)
  Definition sll_insert (m : mem) (h : hdr) (a : nat) (x : A) (after : nat) : outcome (mem * hdr) :=
    obind (get m after) (fun n =>
    let m1 := mset m a (mkNode (flink n) 0 x) in
    obind (set_flink m1 after a) (fun m2 =>
    Ok (m2, mkHdr (inc (size h)) (first h) (if Nat.eqb after (last_ h) then a else last_ h)))).

  (** include/util/np_list.h:844-859: the search loop of sll_delete *)
  Fixpoint sll_delete_loop (fuel : nat) (m : mem) (h : hdr) (tbr tmp mm : nat) : outcome (mem * hdr) :=
    match fuel with
    | O => UB
    | S fuel' =>
        if Nat.eqb tmp 0 then Ok (m, h) else
        obind (get m tmp) (fun ntmp =>
        let tmp := flink ntmp in
        if Nat.eqb tmp tbr then
          if Nat.eqb (last_ h) tbr then
            obind (set_flink m mm 0) (fun m1 =>
            obind (free m1 tmp) (fun m2 => Ok (m2, mkHdr (dec (size h)) (first h) mm)))
          else
            obind (get m tmp) (fun nt =>
            obind (set_flink m mm (flink nt)) (fun m1 =>
            obind (free m1 tmp) (fun m2 => Ok (m2, mkHdr (dec (size h)) (first h) (last_ h)))))
        else obind (get m mm) (fun nm => sll_delete_loop fuel' m h tbr tmp (flink nm)))
    end.

  (** include/util/np_list.h:829-861 *)
  Definition sll_delete (fuel : nat) (m : mem) (h : hdr) (tbr : nat) : outcome (mem * hdr) :=
    if Nat.eqb (first h) tbr then
      if Nat.eqb (last_ h) tbr then
        obind (free m tbr) (fun m1 => Ok (m1, mkHdr 0 0 0))
      else
        obind (get m tbr) (fun n =>
        obind (free m tbr) (fun m1 => Ok (m1, mkHdr (dec (size h)) (flink n) (last_ h))))
    else sll_delete_loop fuel m h tbr (first h) (first h).

  (** include/util/np_list.h:795-803; [None]: the zero value of an empty list *)
  Definition sll_head (fuel : nat) (m : mem) (h : hdr) : outcome (option A * mem * hdr) :=
    if Nat.eqb (first h) 0 then Ok (None, m, h)
    else obind (get m (first h)) (fun n =>
         obind (sll_delete fuel m h (first h)) (fun '(m1, h1) => Ok (Some (val n), m1, h1))).

  (** include/util/np_list.h:804-812 *)
  Definition sll_tail (fuel : nat) (m : mem) (h : hdr) : outcome (option A * mem * hdr) :=
    if Nat.eqb (last_ h) 0 then Ok (None, m, h)
    else obind (get m (last_ h)) (fun n =>
         obind (sll_delete fuel m h (last_ h)) (fun '(m1, h1) => Ok (Some (val n), m1, h1))).

  (** include/util/np_list.h:611-618: sll_next_select *)
  Definition sll_next (a : nat) (n : node) : nat := if Nat.eqb (flink n) a then 0%nat else flink n.

  (** search loop shared by find / contains / remove (include/util/np_list.h:703-710, 717-724,
      730-737): address of the first node whose value compares equal, 0 if none *)
  Fixpoint sll_search (fuel : nat) (m : mem) (p : A -> bool) (a : nat) : outcome nat :=
    match fuel with
    | O => UB
    | S fuel' =>
        if Nat.eqb a 0 then Ok 0%nat
        else obind (get m a) (fun n => if p (val n) then Ok a else sll_search fuel' m p (sll_next a n))
    end.

  (** include/util/np_list.h:698-712 *)
  Definition sll_find (fuel : nat) (cmp : A -> A -> Z) (m : mem) (h : hdr) (x default_return : A) : outcome A :=
    obind (sll_search fuel m (fun v => cmp v x =? 0) (first h)) (fun a =>
      if Nat.eqb a 0 then Ok default_return else obind (get m a) (fun n => Ok (val n))).
  (** include/util/np_list.h:713-726 *)
  Definition sll_contains (fuel : nat) (cmp : A -> A -> Z) (m : mem) (h : hdr) (x : A) : outcome bool :=
    obind (sll_search fuel m (fun v => cmp v x =? 0) (first h)) (fun a => Ok (negb (Nat.eqb a 0))).
  (** include/util/np_list.h:727-738 *)
  Definition sll_remove (fuel : nat) (cmp : A -> A -> Z) (m : mem) (h : hdr) (x : A) : outcome (mem * hdr) :=
    obind (sll_search fuel m (fun v => cmp v x =? 0) (first h)) (fun a =>
      if Nat.eqb a 0 then Ok (m, h) else sll_delete fuel m h a).

  (** include/util/np_list.h:739-745: copy of the source onto the end of the target;
      [news] are the fresh nodes *)
  Fixpoint sll_clone_loop (fuel : nat) (m : mem) (it : nat) (ht : hdr) (news : list nat) : outcome (mem * hdr) :=
    match fuel with
    | O => UB
    | S fuel' =>
        if Nat.eqb it 0 then Ok (m, ht)
        else obind (get m it) (fun n =>
          match news with
          | [] => Abort
          | a :: news' =>
              obind (sll_append m ht a (val n)) (fun '(m1, h1) =>
              obind (get m1 it) (fun n1 => sll_clone_loop fuel' m1 (sll_next it n1) h1 news'))
          end)
    end.
  Definition sll_clone (fuel : nat) (m : mem) (hs ht : hdr) (news : list nat) : outcome (mem * hdr) :=
    sll_clone_loop fuel m (first hs) ht news.

  (** include/util/np_list.h:681-687 (and 688-694): add what is missing *)
  Fixpoint sll_merge_loop (fuel : nat) (cmp : A -> A -> Z) (m : mem) (it : nat) (hr : hdr) (news : list nat)
    : outcome (mem * hdr * list nat) :=
    match fuel with
    | O => UB
    | S fuel' =>
        if Nat.eqb it 0 then Ok (m, hr, news)
        else obind (get m it) (fun n =>
             obind (sll_contains fuel cmp m hr (val n)) (fun c =>
             if c then sll_merge_loop fuel' cmp m (sll_next it n) hr news
             else match news with
                  | [] => Abort
                  | a :: news' =>
                      obind (sll_append m hr a (val n)) (fun '(m1, h1) =>
                      obind (get m1 it) (fun n1 => sll_merge_loop fuel' cmp m1 (sll_next it n1) h1 news'))
                  end))
    end.
  (** include/util/np_list.h:676-696: first list_b, then list_a *)
  Definition sll_merge (fuel : nat) (cmp : A -> A -> Z) (m : mem) (ha hb : hdr) (news : list nat) : outcome (mem * hdr) :=
    obind (sll_merge_loop fuel cmp m (first hb) list_init news) (fun '(m1, h1, news1) =>
    obind (sll_merge_loop fuel cmp m1 (first ha) h1 news1) (fun '(m2, h2, _) => Ok (m2, h2))).

  (** free all nodes from [a] on (loops of include/util/np_list.h:301-306, 486-490, 822-826) *)
  Fixpoint free_loop (fuel : nat) (m : mem) (a : nat) : outcome mem :=
    match fuel with
    | O => UB
    | S fuel' =>
        if Nat.eqb a 0 then Ok m
        else obind (get m a) (fun n => obind (free m a) (fun m1 => free_loop fuel' m1 (flink n)))
    end.
  (** include/util/np_list.h:820-828: [last] is not reset *)
  Definition sll_clear (fuel : nat) (m : mem) (h : hdr) : outcome (mem * hdr) :=
    obind (free_loop fuel m (first h)) (fun m1 => Ok (m1, mkHdr 0 0 (last_ h))).

  (* ------------------------------------------------------------------ DLL *)

  (** include/util/np_list.h:426-441 *)
  Definition dll_append (m : mem) (h : hdr) (a : nat) (x : A) : outcome (mem * hdr) :=
    let m1 := mset m a (mkNode 0 0 x) in
    if negb (Nat.eqb (last_ h) 0) then
      obind (set_flink m1 (last_ h) a) (fun m2 =>
      obind (set_blink m2 a (last_ h)) (fun m3 => Ok (m3, mkHdr (inc (size h)) (first h) a)))
    else Ok (m1, mkHdr (inc (size h)) a a).

  (** include/util/np_list.h:442-457 *)
  Definition dll_prepend (m : mem) (h : hdr) (a : nat) (x : A) : outcome (mem * hdr) :=
    let m1 := mset m a (mkNode 0 0 x) in
    if negb (Nat.eqb (first h) 0) then
      obind (set_blink m1 (first h) a) (fun m2 =>
      obind (set_flink m2 a (first h)) (fun m3 => Ok (m3, mkHdr (inc (size h)) a (last_ h))))
    else Ok (m1, mkHdr (inc (size h)) a a).

  (** include/util/np_list.h:458-470 (DLL), 266-279 (PLL) *)
  Definition dll_head (m : mem) (h : hdr) : outcome (option A * mem * hdr) :=
    if Nat.eqb (first h) 0 then Ok (None, m, h)
    else
      let tmp := first h in
      obind (get m tmp) (fun n =>
      let f := flink n in
      obind (if negb (Nat.eqb f 0) then set_blink m f 0 else Ok m) (fun m1 =>
      obind (free m1 tmp) (fun m2 =>
      Ok (Some (val n), m2, mkHdr (dec (size h)) f (if Nat.eqb f 0 then 0%nat else last_ h))))).

  (** include/util/np_list.h:471-483 (DLL), 280-293 (PLL) *)
  Definition dll_tail (m : mem) (h : hdr) : outcome (option A * mem * hdr) :=
    if Nat.eqb (last_ h) 0 then Ok (None, m, h)
    else
      let tmp := last_ h in
      obind (get m tmp) (fun n =>
      let b := blink n in
      obind (if negb (Nat.eqb b 0) then set_flink m b 0 else Ok m) (fun m1 =>
      obind (free m1 tmp) (fun m2 =>
      Ok (Some (val n), m2, mkHdr (dec (size h)) (if Nat.eqb b 0 then 0%nat else first h) b)))).

  (** include/util/np_list.h:504-514 (DLL), 208-219 (PLL) *)
  Definition dll_delete (m : mem) (h : hdr) (d : nat) : outcome (mem * hdr) :=
    obind (get m d) (fun n =>
    obind (if negb (Nat.eqb (flink n) 0) then set_blink m (flink n) (blink n) else Ok m) (fun m1 =>
    obind (if negb (Nat.eqb (blink n) 0) then set_flink m1 (blink n) (flink n) else Ok m1) (fun m2 =>
    let f := if Nat.eqb (first h) d then flink n else first h in
    let l := if Nat.eqb (last_ h) d then blink n else last_ h in
    obind (free m2 d) (fun m3 => Ok (m3, mkHdr (dec (size h)) f l))))).

  (** search loop of include/util/np_list.h:224-232, 516-524 *)
  Fixpoint dll_search (fuel : nat) (m : mem) (p : A -> bool) (a : nat) : outcome nat :=
    match fuel with
    | O => UB
    | S fuel' =>
        if Nat.eqb a 0 then Ok 0%nat
        else obind (get m a) (fun n => if p (val n) then Ok a else dll_search fuel' m p (flink n))
    end.
  (** include/util/np_list.h:515-525 (DLL, p is equality), 220-233 (PLL, p is cmp = 0) *)
  Definition dll_remove (fuel : nat) (p : A -> bool) (m : mem) (h : hdr) : outcome (mem * hdr) :=
    obind (dll_search fuel m p (first h)) (fun a => if Nat.eqb a 0 then Ok (m, h) else dll_delete m h a).

  (** include/util/np_list.h:493-503 (DLL), 299-310 (PLL) *)
  Definition dll_clear (fuel : nat) (m : mem) (h : hdr) : outcome (mem * hdr) :=
    obind (free_loop fuel m (first h)) (fun m1 => Ok (m1, list_init)).

  (* ------------------------------------------------------------------ PLL *)

  (** include/util/np_list.h:182-204: loop of pll_insert; [a] is the new node *)
  Fixpoint pll_insert_loop (fuel : nat) (cmp : A -> A -> Z) (dups_ok : bool) (m : mem) (h : hdr) (a : nat) (x : A) (c : nat)
    : outcome (bool * mem * hdr) :=
    match fuel with
    | O => UB
    | S fuel' =>
        if Nat.eqb c 0 then Ok (true, m, mkHdr (inc (size h)) (first h) (last_ h)) else
        obind (get m c) (fun nc =>
        let r := cmp (val nc) x in
        if r <? 0 then
          obind (set_flink m a c) (fun m1 =>
          obind (if negb (Nat.eqb (blink nc) 0) then set_flink m1 (blink nc) a else Ok m1) (fun m2 =>
          obind (set_blink m2 a (blink nc)) (fun m3 =>
          obind (set_blink m3 c a) (fun m4 =>
          Ok (true, m4, mkHdr (inc (size h)) (if Nat.eqb c (first h) then a else first h) (last_ h))))))
        else if (r =? 0) && negb dups_ok then
          obind (free m a) (fun m1 => Ok (false, m1, h))
        else if Nat.eqb c (last_ h) then
          obind (set_flink m c a) (fun m1 =>
          obind (set_blink m1 a c) (fun m2 => Ok (true, m2, mkHdr (inc (size h)) (first h) a)))
        else pll_insert_loop fuel' cmp dups_ok m h a x (flink nc))
    end.
  (** include/util/np_list.h:166-207 *)
  Definition pll_insert (fuel : nat) (cmp : A -> A -> Z) (dups_ok : bool) (m : mem) (h : hdr) (a : nat) (x : A)
    : outcome (bool * mem * hdr) :=
    let m1 := mset m a (mkNode 0 0 x) in
    if Nat.eqb (first h) 0 then Ok (true, m1, mkHdr (inc (size h)) a a)
    else pll_insert_loop fuel cmp dups_ok m1 h a x (first h).

  (** include/util/np_list.h:234-249 *)
  Definition pll_replace (fuel : nat) (cmp : A -> A -> Z) (m : mem) (h : hdr) (x : A) : outcome (option A * mem) :=
    obind (dll_search fuel m (fun v => cmp v x =? 0) (first h)) (fun a =>
      if Nat.eqb a 0 then Ok (None, m)
      else obind (get m a) (fun n => obind (set_val m a x) (fun m1 => Ok (Some (val n), m1)))).

  (** include/util/np_list.h:250-265: gives up at the first element comparing 1 *)
  Fixpoint pll_find_loop (fuel : nat) (cmp : A -> A -> Z) (m : mem) (x : A) (a : nat) : outcome (option A) :=
    match fuel with
    | O => UB
    | S fuel' =>
        if Nat.eqb a 0 then Ok None
        else obind (get m a) (fun n =>
          let r := cmp (val n) x in
          if r =? 0 then Ok (Some (val n)) else if r =? 1 then Ok None
          else pll_find_loop fuel' cmp m x (flink n))
    end.
  Definition pll_find (fuel : nat) (cmp : A -> A -> Z) (m : mem) (h : hdr) (x : A) : outcome (option A) :=
    pll_find_loop fuel cmp m x (first h).
End Lists.
Arguments node A : clear implicits.
Arguments mem A : clear implicits.
