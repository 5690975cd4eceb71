(** What can be said about a trace of event chains. *)
From Verif Require Import Base Dhkey_Model Eventqueue_Model.

(** the events added to chain [c], in order; those run; the objects released *)
Definition added (c : nat) (t : list act) : list (key * event) :=
  flat_map (fun a => match a with Added c' k e => if Nat.eqb c' c then [(k, e)] else [] | _ => [] end) t.
Definition ran (c : nat) (t : list act) : list (key * event) :=
  flat_map (fun a => match a with Ran c' k e _ => if Nat.eqb c' c then [(k, e)] else [] | _ => [] end) t.
Definition released (c : nat) (t : list act) : list Z :=
  flat_map (fun a => match a with Released c' o => if Nat.eqb c' c then [o] else [] | _ => [] end) t.
Definition objects (l : list (key * event)) : list Z := flat_map (fun x => match data (snd x) with Some o => [o] | None => [] end) l.

(** References to the object [o] taken by chains and not yet given back *)
Fixpoint held (o : Z) (t : list act) : Z :=
  match t with
  | [] => 0
  | Added _ _ e :: t' => (match data e with Some o' => if o' =? o then 1 else 0 | None => 0 end) + held o t'
  | Released _ o' :: t' => held o t' - (if o' =? o then 1 else 0)
  | _ :: t' => held o t'
  end.
