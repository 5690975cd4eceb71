(** What the bloom filters are supposed to do, in terms of the items put in. *)
From Verif Require Import Base Dhkey_Model Bloom_Model.

(** an item with the same position as [w] is among [ids] *)
Definition hit (n w : Z) (ids : list key) : bool := existsb (existsb (fun v => v mod n =? w mod n)) ids.
(** all positions of [id] are taken by items of [ids]: the answer a bloom filter gives *)
Definition covered (n : Z) (ids : list key) (id : key) : bool := forallb (fun w => hit n w ids) id.

(** filters built by adding and uniting *)
Inductive fexp := FNew | FAdd (e : fexp) (id : key) | FUnion (e1 e2 : fexp).
Fixpoint items (e : fexp) : list key :=
  match e with FNew => [] | FAdd e id => id :: items e | FUnion a b => items a ++ items b end.
Section Build.
  Variables (new : bloom) (add : bloom -> key -> outcome bloom) (union : bloom -> bloom -> outcome bloom).
  Fixpoint build (e : fexp) : outcome bloom :=
    match e with
    | FNew => Ok new
    | FAdd e id => obind (build e) (fun b => add b id)
    | FUnion e1 e2 => obind (build e1) (fun b1 => obind (build e2) (union b1))
    end.
End Build.
Definition standard (n : Z) : fexp -> outcome bloom := build (standard_create n) standard_add standard_union.
Definition routing : fexp -> outcome bloom := build nbf_create nbf_add nbf_union.

Fixpoint add_all (add : bloom -> key -> outcome bloom) (b : bloom) (ids : list key) : outcome bloom :=
  match ids with [] => Ok b | id :: r => obind (add b id) (fun b' => add_all add b' r) end.

(** * Decaying filter: for every position, by how many bits its cell was shifted since it was last written *)
Record decay_state := mkDecay { sz : Z; shift : Z; since : Z -> option Z }.
Inductive dop := DAdd (id : key) | DDecay | DShift (pp : Z) | DResize (n : Z).
Definition dstep (s : decay_state) (o : dop) : decay_state :=
  match o with
  | DAdd id => mkDecay (sz s) (shift s) (fun pos => if existsb (fun v => v mod sz s =? pos) id then Some 0 else since s pos)
  | DDecay => mkDecay (sz s) (shift s) (fun pos => option_map (Z.add (shift s)) (since s pos))
  | DShift pp => mkDecay (sz s) pp (since s)
  | DResize n => mkDecay n (shift s) (fun _ => None)
  end.
(** an item is remembered as long as none of its positions has been shifted by the [width] of a cell *)
Definition remembered (width : Z) (s : decay_state) (id : key) : bool :=
  forallb (fun w => match since s (w mod sz s) with Some k => k <? width | None => false end) id.
(** the operations on the code's filter (np_comp_alias.c:219-240 for the last two) *)
Definition dapply (b : bloom) (o : dop) : outcome bloom :=
  match o with
  | DAdd id => decaying_add b id
  | DDecay => decaying_decay b
  | DShift pp => Ok (set_p b pp)
  | DResize n => decaying_clear (set_size b n)
  end.
Fixpoint dapply_all (b : bloom) (l : list dop) : outcome bloom :=
  match l with [] => Ok b | o :: r => obind (dapply b o) (fun b' => dapply_all b' r) end.
Definition dop_ok (width : Z) (o : dop) : Prop :=
  match o with DAdd id => wf_key id | DDecay => True | DShift pp => 1 <= pp < 256 | DResize n => 0 < n <= 65535 /\ n mod 8 = 0 end.

(** Single part messages: src/core/np_comp_alias.c:62-69 (check, under the lock) and 150-158 (add, under the lock);
    [true]: the message is delivered *)
Definition receive (b : bloom) (id : key) : outcome (bool * bloom) :=
  obind (decaying_check b id) (fun seen => if seen then Ok (false, b) else obind (decaying_add b id) (fun b' => Ok (true, b'))).

(** * Counting filter *)
(** number of words of all [ids] that fall on position [pos] *)
Definition hits (n pos : Z) (ids : list key) : Z :=
  fold_right (fun id c => Z.of_nat (length (filter (fun v => v mod n =? pos) id)) + c) 0 ids.
Inductive cop := CAdd (id : key) | CRemove (id : key).
Definition key_eqb (a b : key) : bool := if list_eq_dec Z.eq_dec a b then true else false.
Fixpoint remove1 (id : key) (l : list key) : list key :=
  match l with [] => [] | x :: r => if key_eqb x id then r else x :: remove1 id r end.
(** items present: added more often than removed *)
Definition cstep (l : list key) (o : cop) : list key := match o with CAdd id => id :: l | CRemove id => remove1 id l end.
Definition capply (b : bloom) (o : cop) : outcome bloom := match o with CAdd id => counting_add b id | CRemove id => counting_remove b id end.
(** along a history: only present items are removed, fewer than [cap] items are present before each step and no cell
    count exceeds [bound] *)
Fixpoint cvalid (n cap bound : Z) (l : list key) (h : list cop) : Prop :=
  match h with
  | [] => True
  | o :: r => match o with CAdd id => wf_key id | CRemove id => In id l end /\ Z.of_nat (length l) < cap /\
              (forall pos, hits n pos (cstep l o) <= bound) /\ cvalid n cap bound (cstep l o) r
  end.
Fixpoint capply_all (b : bloom) (h : list cop) : outcome bloom :=
  match h with [] => Ok b | o :: r => obind (capply b o) (fun b' => capply_all b' r) end.

(** * Rate limit *)
(** packets of the given peers, in order: the peers whose packet was let through (latest first) *)
Fixpoint packets (l : limiter) (done ps : list key) : outcome (list key * limiter) :=
  match ps with
  | [] => Ok (done, l)
  | x :: r => obind (packet l x) (fun '(ok, l') => packets l' (if ok : bool then x :: done else done) r)
  end.
Definition count_of (x : key) (l : list key) : Z := Z.of_nat (length (filter (key_eqb x) l)).
(** histories of the rate limiter *)
Inductive lop := LPacket (x : key) | LPeriod.
Definition lapply (l : limiter) (o : lop) : outcome limiter :=
  match o with LPacket x => obind (packet l x) (fun r => Ok (snd r)) | LPeriod => period l end.
Fixpoint lapply_all (l : limiter) (h : list lop) : outcome limiter :=
  match h with [] => Ok l | o :: r => obind (lapply l o) (fun l' => lapply_all l' r) end.
Definition lop_ok (o : lop) : Prop := match o with LPacket x => wf_key x | LPeriod => True end.
Definition reached (configured : Z) (h : list lop) (l : limiter) : Prop :=
  Forall lop_ok h /\ obind (limiter_init configured) (fun l0 => lapply_all l0 h) = Ok l.
(** one packet in each of [n] periods *)
Fixpoint one_per_period (l : limiter) (x : key) (n : nat) : outcome limiter :=
  match n with O => Ok l | S n' => obind (packet l x) (fun '(_, l1) => obind (period l1) (fun l2 => one_per_period l2 x n')) end.

(** * Routing filter: cell of the k-th word: the block and the product *)
Definition cell_of (k : nat) (w : Z) : Z * Z := (Z.of_nat k / 2, (w mod 3 + 1) * (w mod 5 + 1) * (w mod 17 + 1)).
Fixpoint cells_from (k : nat) (id : key) : list (Z * Z) := match id with [] => [] | w :: r => cell_of k w :: cells_from (S k) r end.
Definition cells_of (id : key) : list (Z * Z) := cells_from 0 id.
Definition cell_eqb (a b : Z * Z) : bool := (fst a =? fst b) && (snd a =? snd b).
Definition cell_hits (c : Z * Z) (ids : list key) : Z :=
  fold_right (fun id n => Z.of_nat (length (filter (cell_eqb c) (cells_of id))) + n) 0 ids.
Definition routed (ids : list key) (id : key) : bool := forallb (fun c => 0 <? cell_hits c ids) (cells_of id).
(** the 4 * 255 cells *)
Definition valid (c : Z * Z) : Prop := 0 <= fst c < 4 /\ 1 <= snd c <= 255.
(** age everything [k] times; remove several items *)
Fixpoint age_times (k : nat) (b : bloom) : outcome bloom := match k with O => Ok b | S k' => obind (nbf_age_dec b) (age_times k') end.
Fixpoint remove_all (b : bloom) (xs : list key) : outcome bloom := match xs with [] => Ok b | x :: r => obind (nbf_remove b x) (fun b' => remove_all b' r) end.
(** the items left after removing [xs] one by one, if each was present *)
Fixpoint removed (xs ids : list key) : option (list key) :=
  match xs with [] => Some ids | x :: r => if in_dec (list_eq_dec Z.eq_dec) x ids then removed r (remove1 x ids) else None end.

(** * Duplicate messages *)
(** bits the cells are shifted by in a history without resizing, starting with shift [pp] *)
Fixpoint total_shift (pp : Z) (l : list dop) : Z :=
  match l with
  | [] => 0
  | DDecay :: r => pp + total_shift pp r
  | DShift q :: r => total_shift q r
  | _ :: r => total_shift pp r
  end.
Definition no_resize (o : dop) : Prop := match o with DResize _ => False | _ => True end.
(** two threads that receive the same message at the same time: each first checks, then adds (np_comp_alias.c:63 and
    152 take the lock separately) *)
Inductive pc := Checking | Adding | Delivered | Discarded.
Inductive thread_step (id : key) : pc * bloom -> pc * bloom -> Prop :=
| t_seen b : decaying_check b id = Ok true -> thread_step id (Checking, b) (Discarded, b)
| t_new b : decaying_check b id = Ok false -> thread_step id (Checking, b) (Adding, b)
| t_add b b' : decaying_add b id = Ok b' -> thread_step id (Adding, b) (Delivered, b').
Inductive two_step (id : key) : pc * pc * bloom -> pc * pc * bloom -> Prop :=
| first_moves p1 p1' p2 b b' : thread_step id (p1, b) (p1', b') -> two_step id (p1, p2, b) (p1', p2, b')
| second_moves p1 p2 p2' b b' : thread_step id (p2, b) (p2', b') -> two_step id (p1, p2, b) (p1, p2', b').
Inductive two_steps (id : key) : pc * pc * bloom -> pc * pc * bloom -> Prop :=
| two_done s : two_steps id s s
| two_more s t u : two_step id s t -> two_steps id t u -> two_steps id s u.
