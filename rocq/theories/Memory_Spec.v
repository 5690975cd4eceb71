(** What users of reference counted objects may expect. *)
From Verif Require Import Base Memory_Model.

(** ** Life cycle of one object, as seen through the callbacks of its type.
    With a refresh callback: refresh, new, free, refresh, new, free, ...; without: new, free, new, free, ... *)
Inductive phase := Dirty | Ready | Live.
Definition call_id (c : call) : nat := match c with OnRefresh x | OnNew x | OnFree x => x end.
Definition unused (r : bool) : phase := if r then Dirty else Ready.
Definition follow (r : bool) (s : option phase) (c : call) : option phase :=
  match s, c with
  | Some Dirty, OnRefresh _ => Some Ready
  | Some Ready, OnNew _ => Some Live
  | Some Live, OnFree _ => Some (unused r)
  | _, _ => None
  end.
Definition phase_of (r : bool) (l : list call) (x : nat) : option phase :=
  fold_left (fun s c => if Nat.eq_dec (call_id c) x then follow r s c else s) l (Some (unused r)).

(** ** A client that only uses references it holds: [refs x] is the number of references it holds to object [x].
    Requests on objects it has no reference to are not made. *)
Definition refs_inc (f : nat -> nat) (x : nat) : nat -> nat := fun y => if Nat.eq_dec y x then S (f y) else f y.
Definition refs_dec (f : nat -> nat) (x : nat) : nat -> nat := fun y => if Nat.eq_dec y x then pred (f y) else f y.
Definition permitted (f : nat -> nat) (o : op) : bool :=
  match o with
  | New | Manage _ => true
  | Ref x => (0 <? f x)%nat && (Z.of_nat (f x) <? 4294967295)
  | Unref x => (0 <? f x)%nat
  end.
Definition refs_after (f : nat -> nat) (o : op) (res : option nat) : nat -> nat :=
  match o, res with
  | New, Some x => refs_inc f x
  | Ref x, _ => refs_inc f x
  | Unref x, _ => refs_dec f x
  | _, _ => f
  end.
Fixpoint client (p : pool) (f : nat -> nat) (l : list op) : outcome (pool * (nat -> nat)) :=
  match l with
  | [] => Ok (p, f)
  | o :: l' => if permitted f o then obind (apply p o) (fun '(res, q) => client q (refs_after f o res) l') else client p f l'
  end.

(** ** Concurrent use *)
Definition count (x : nat) (h : list (nat * nat)) : nat := length (filter (fun e => Nat.eqb (snd e) x) h).
(** items an allocation, management or deletion in progress has taken off the lists *)
Definition popped (c : pc) : list nat :=
  match c with NewRefresh x | NewCheck x | MDelete x => [x] | MWork l => l | MAppend x l => x :: l | _ => [] end.
(** an object that an allocation in progress is about to hand out *)
Definition fresh_for (c : pc) (x : nat) : Prop := c = NewCount x \/ c = NewRef x.

(** Nobody can get hold of, recycle or delete an object somebody owns. *)
Definition owner_safe (s : conc) : Prop :=
  forall t x, In (t, x) (holds s) ->
    (exists i, items (cpool s) x = Some i /\ in_use i = true /\ 0 < ref_count i) /\
    ~ In x (free (cpool s)) /\ ~ In x (refreshed (cpool s)) /\
    (forall u, ~ In x (popped (pcs s u)) /\ ~ fresh_for (pcs s u) x).

(** The window the code leaves open: np_memory_free of an earlier unref runs when the object has meanwhile been
    deleted, or has been recycled and is being handed out again but not referenced yet. *)
Definition benign (s : conc) (t : nat) (a : act) : Prop :=
  match pcs s t, a with
  | UnFree x, AGo => items (cpool s) x <> None /\ forall u, ~ fresh_for (pcs s u) x
  | Idle, ARef x => Z.of_nat (count x (holds s)) < 4294967295
  | _, _ => True
  end.
Fixpoint benign_run (s : conc) (l : list (nat * act)) : Prop :=
  match l with
  | [] => True
  | (t, a) :: l' => benign s t a /\ match step s t a with Some (Ok s') => benign_run s' l' | _ => True end
  end.
