(** A sorted set over a comparison function. *)
From Verif Require Import Base Lists_Spec.

Definition ascending {A} (cmp : A -> A -> Z) (l : list A) : Prop := StronglySorted (fun x y => cmp x y < 0) l.
(** present up to the comparison *)
Definition member {A} (cmp : A -> A -> Z) (x : A) (l : list A) : bool := existsb (fun y => cmp y x =? 0) l.

Inductive set_op (A : Type) := SAdd (x : A) | SFind (x : A) | SRemove (x : A) | SSize.
Arguments SAdd {A}. Arguments SFind {A}. Arguments SRemove {A}. Arguments SSize {A}.
Inductive set_answer (A : Type) := AFlag (b : bool) | AFound (b : bool) (y : option A) | ASize (n : Z).
Arguments AFlag {A}. Arguments AFound {A}. Arguments ASize {A}.

(** One operation on the set given by its ascending enumeration. *)
Definition set_step {A} (cmp : A -> A -> Z) (l : list A) (o : set_op A) (r : set_answer A) (l' : list A) : Prop :=
  match o with
  | SAdd x => if member cmp x l then r = AFlag false /\ l' = l
              else r = AFlag true /\ ascending cmp l' /\ Permutation l' (x :: l)
  | SFind x => l' = l /\
               r = match find (fun y => 0 <=? cmp y x) l with     (* least element not below x *)
                   | Some y => AFound (cmp y x =? 0) (Some y)
                   | None => AFound false (Some x)
                   end
  | SRemove x => r = AFlag (member cmp x l) /\ l' = filter (fun y => negb (cmp y x =? 0)) l
  | SSize => r = ASize (Z.of_nat (length l)) /\ l' = l
  end.
Inductive set_run {A} (cmp : A -> A -> Z) : list A -> list (set_op A) -> list (set_answer A) -> list A -> Prop :=
| sr_nil l : set_run cmp l [] [] l
| sr_cons l o r l1 os rs l2 : set_step cmp l o r l1 -> set_run cmp l1 os rs l2 -> set_run cmp l (o :: os) (r :: rs) l2.
