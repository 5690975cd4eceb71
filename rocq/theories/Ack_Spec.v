(** What acknowledgements and redelivery promise, in terms of what was sent and what was reported. *)
From Verif Require Import Base Ack_Model.
From Coq Require Import List.

(** The messages and pings of a history *)
Definition start (o : op) : option uuid :=
  match o with Send u _ _ _ => Some u | Ping u _ _ => Some u | _ => None end.
Fixpoint started (h : list op) : list uuid :=
  match h with
  | [] => []
  | o :: h' => match start o with Some u => u :: started h' | None => started h' end
  end.

(** 16 bytes *)
Definition is_uuid (u : uuid) : Prop := length u = 16%nat /\ Forall (fun x => 0 <= x <= 255) u.

(** No message id is given twice, and the clock does not run backwards *)
Definition fair (h : list op) : Prop :=
  NoDup (started h) /\ Forall is_uuid (started h) /\ forall d, In (Tick d) h -> 0 <= d.

(** When the wait for an answer is over *)
Fixpoint deadline (h : list op) (u : uuid) : Z :=
  match h with
  | [] => 0
  | Send v t ttl _ :: h' => if list_eq_dec Z.eq_dec v u then t + ttl else deadline h' u
  | Ping v t ttl :: h' => if list_eq_dec Z.eq_dec v u then t + ttl else deadline h' u
  | _ :: h' => deadline h' u
  end.

(** The messages without a report *)
Definition reported (s : sender) (u : uuid) : Prop := In u (map fst (results s)).
Definition open (h : list op) (s : sender) : list uuid :=
  filter (fun u => if in_dec (list_eq_dec Z.eq_dec) u (map fst (results s)) then false else true) (started h).

(** The time stamps with which a message was sent *)
Definition stamps (s : sender) (u : uuid) : list Z :=
  map snd (filter (fun e => if list_eq_dec Z.eq_dec (fst e) u then true else false) (sent s)).

Definition progression (t iv : Z) (n : nat) : list Z := map (fun i => t + Z.of_nat i * iv) (seq 0 n).

Definition no_ack (h : list op) : Prop := forall f, ~ In (Ack f) h.
Definition no_start (h : list op) : Prop := started h = [].
Definition rounds (h : list op) : nat := length (filter (fun o => match o with AckCheck => true | _ => false end) h).
