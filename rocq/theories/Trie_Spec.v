(** What a trie is supposed to be: a finite map from keys (byte strings of one length) to data. *)
From Verif Require Import Base Trie_Model.

Definition is_key (n : nat) (k : list Z) : Prop := length k = n /\ Forall (fun b => 0 <= b < 256) k.
(** half bytes of a key, most significant first *)
Definition half (k : list Z) (i : nat) : Z := if Nat.even i then nth (Nat.div2 i) k 0 / 16 else nth (Nat.div2 i) k 0 mod 16.
(** after the first half byte in which they differ, the two keys agree in at most one more *)
Definition loosely (k x : list Z) : Prop :=
  forall m a b, (m < a < b)%nat -> (b < 2 * length k)%nat -> (forall i, (i < m)%nat -> half k i = half x i) -> half k m <> half x m ->
    half k a = half x a -> half k b = half x b -> False.

(** the map *)
Definition fmap := list Z -> option Z.
Definition empty : fmap := fun _ => None.
Definition key_eq (a b : list Z) : bool := if list_eq_dec Z.eq_dec a b then true else false.
Definition put (m : fmap) (k : list Z) (o : option Z) : fmap := fun x => if key_eq x k then o else m x.

(** what is done with a trie: insert a key and replace the data found there (0 for a new key); remove a key *)
Inductive op := Ins (k : list Z) (f : Z -> Z) | Del (k : list Z).
Definition apply (t : option trie) (o : op) : outcome (option trie) :=
  match o with Ins k f => insert t k f | Del k => Ok (fst (delete t k)) end.
Fixpoint run (t : option trie) (h : list op) : outcome (option trie) :=
  match h with [] => Ok t | o :: r => obind (apply t o) (fun t' => run t' r) end.
Definition act (m : fmap) (o : op) : fmap :=
  match o with Ins k f => put m k (Some (f (match m k with Some v => v | None => 0 end))) | Del k => put m k None end.
Fixpoint acts (m : fmap) (h : list op) : fmap := match h with [] => m | o :: r => acts (act m o) r end.
Definition op_key (o : op) : list Z := match o with Ins k _ => k | Del k => k end.
(** every removal leaves something: the map is never emptied again *)
Fixpoint never_emptied (m : fmap) (h : list op) : Prop :=
  match h with
  | [] => True
  | o :: r => (match o with Ins _ _ => True | Del k => m k = None \/ exists x, x <> k /\ m x <> None end) /\ never_emptied (act m o) r
  end.
(** the keys that are inserted while other keys are present agree loosely with them *)
Fixpoint loose (m : fmap) (h : list op) : Prop :=
  match h with
  | [] => True
  | o :: r => (match o with Ins k _ => m k = None -> forall x, m x <> None -> loosely k x | Del _ => True end) /\ loose (act m o) r
  end.
(** byte strings in lexicographic order *)
Fixpoint before (a b : list Z) : Prop :=
  match a, b with x :: a', y :: b' => x < y \/ (x = y /\ before a' b') | _, _ => False end.
