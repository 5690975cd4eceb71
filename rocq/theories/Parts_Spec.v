(** A node that receives parts of many messages, in any order, and tidies up now and then. *)
From Verif Require Import Base Dhkey_Model Bloom_Model Message_Model Parts_Model.

Inductive event := Part (k : key) (p : packet) | Tidy (now peers : Z).
Definition react (fuel : nat) (time_of : list Z -> Z * Z) (st : parts_state) (e : event) : outcome (list (key * rstate) * parts_state) :=
  match e with
  | Part k p => obind (arrive fuel st k p) (fun '(r, st') => Ok (match r with Some s => [(k, s)] | None => [] end, st'))
  | Tidy now peers => obind (cleanup time_of st now peers) (fun st' => Ok ([], st'))
  end.
(** what is handed on during a history, in this order *)
Fixpoint history (fuel : nat) (time_of : list Z -> Z * Z) (st : parts_state) (evs : list event) : outcome (list (key * rstate) * parts_state) :=
  match evs with
  | [] => Ok ([], st)
  | e :: r => obind (react fuel time_of st e) (fun '(o, st1) => obind (history fuel time_of st1 r) (fun '(o2, st2) => Ok (o ++ o2, st2)))
  end.
(** the parts of message [k] among the events, and what was handed on of it *)
Fixpoint own (k : key) (evs : list event) : list packet :=
  match evs with [] => [] | Part k' p :: r => if list_eq_dec Z.eq_dec k k' then p :: own k r else own k r | Tidy _ _ :: r => own k r end.
Fixpoint handed (k : key) (out : list (key * rstate)) : list rstate :=
  match out with [] => [] | (k', s) :: r => if list_eq_dec Z.eq_dec k k' then s :: handed k r else handed k r end.
(** one of the eight words of [k] differs modulo 8192 from all words of the other keys *)
Definition apart (k : key) (evs : list event) : Prop :=
  exists w, In w k /\ forall k' p v, In (Part k' p) evs -> k' <> k -> In v k' -> v mod 8192 <> w mod 8192.
(** fewer than 512 neighbours, and the life time of the message is not over when the node tidies up *)
Definition in_time (time_of : list Z -> Z * Z) (header : list Z) (e : event) : Prop :=
  match e with
  | Part _ _ => True
  | Tidy now peers => 0 <= peers < 512 /\ now < fst (time_of header) + snd (time_of header) * 1000000
  end.
(** the number of neighbours does not leave the range between two cubes; [m] is 1 for 0 to 7 neighbours, 2 for 8 to 26, ... *)
Definition between_cubes (m : Z) (e : event) : Prop :=
  match e with Part _ _ => True | Tidy _ peers => 0 <= peers < (m + 1) * (m + 1) * (m + 1) /\ (m = 1 \/ m * m * m <= peers) end.
Fixpoint tidied (evs : list event) : Z := match evs with [] => 0 | Part _ _ :: r => tidied r | Tidy _ _ :: r => 1 + tidied r end.
Definition few (e : event) : Prop := match e with Part _ _ => True | Tidy _ peers => 0 <= peers < 512 end.
(** number of neighbours at the time of the last tidying *)
Fixpoint last_count (n : Z) (evs : list event) : Z := match evs with [] => n | Part _ _ :: r => last_count n r | Tidy _ peers :: r => last_count peers r end.
