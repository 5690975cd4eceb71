(** What a user expects of a data channel at run time. *)
From Verif Require Import Base Channel_Model.

(** settings np_set_mx_properties can produce: one order, one overflow rule, room for at least one message *)
Definition sane (k : config) : Prop := In (k_policy k) [17; 33; 18; 34] /\ 1 <= k_size k < 65536 /\ 1 <= k_max k < 256.
Definition oldest_first (k : config) : Prop := k_policy k = 17 \/ k_policy k = 33.
Definition newest_first (k : config) : Prop := k_policy k = 18 \/ k_policy k = 34.
Definition rejecting (k : config) : Prop := k_policy k = 17 \/ k_policy k = 18.

(** messages that came in during a history *)
Definition arrived (h : list (env * ev)) : list msg := flat_map (fun x => match snd x with Arrive m => [m] | _ => [] end) h.
(** messages on their way in a running chain *)
Definition on_the_way (c : chan) : list msg := flat_map (fun i => match i with IMsg m => [m] | _ => [] end) (pend c).
(** every place a message can be in *)
Definition everywhere (c : chan) : list msg :=
  given c ++ failed c ++ dups c ++ dropped c ++ expired c ++ cache c ++ on_the_way c.

(** settings in a history: [P] holds of all of them *)
Definition configs_in (P : config -> Prop) (h : list (env * ev)) : Prop :=
  Forall (fun x => match snd x with Config k => P k | _ => True end) h.
(** the sequence of configurations never makes the number smaller *)
Fixpoint never_lowers (f : config -> Z) (k : config) (h : list (env * ev)) : Prop :=
  match h with
  | [] => True
  | x :: r => match snd x with Config k' => f k <= f k' /\ never_lowers f k' r | _ => never_lowers f k r end
  end.

(** anything but a change of settings *)
Definition quiet (a : env * ev) : Prop := match snd a with Config _ => False | _ => True end.

(** time does not run backwards *)
Fixpoint in_order (t : Z) (h : list (env * ev)) : Prop :=
  match h with [] => True | x :: r => t <= e_now (fst x) /\ in_order (e_now (fst x)) r end.
(** nothing is looked at after it expired: what the check on arrival (src/core/np_comp_alias.c:575-588, 673-684) is there for *)
Fixpoint in_time (h : list (env * ev)) (c : chan) : Prop :=
  match h with
  | [] => True
  | x :: r =>
    match snd x with
    | Arrive m => e_now (fst x) <= m_expiry m
    | Chain => match pend c with IMsg m :: _ => e_now (fst x) <= m_expiry m | _ => True end
    | _ => True
    end /\ match step x c with Ok c' => in_time r c' | _ => True end
  end.
