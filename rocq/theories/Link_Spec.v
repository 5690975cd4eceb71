(** What a user may expect of the connection to a peer, stated with own constants. *)
From Verif Require Import Base Link_Model.

(** 10^-10 s: 31.4159265350 s, 94.247779605 s, 97.247779605 s, 5 s *)
Definition ping_short : Z := 314159265350.
Definition ping_long : Z := 942477796050.
Definition grace : Z := 972477796050.
Definition retry_time : Z := 50000000000.

(** The outcomes of what was asked of the peer, oldest first. *)
Fixpoint outcomes (es : list event) : list bool :=
  match es with
  | [] => []
  | e :: es => match e_kind e with
               | Response _ => true :: outcomes es
               | Timeout _ => false :: outcomes es
               | _ => outcomes es
               end
  end.

(** A new peer is taken to have answered every other of 30 questions, and not to have answered the 31st. *)
Definition presumed : list bool := concat (repeat [true; false] 15) ++ [false].

(** Of the last 31 outcomes, how many are answers? *)
Definition last31 (h : list bool) : list bool := skipn (length h - 31) h.
Definition answered (es : list event) : nat := count_occ Bool.bool_dec (last31 (presumed ++ outcomes es)) true.

(** The clock does not run backwards. *)
Fixpoint in_order (t : Z) (es : list event) : Prop :=
  match es with [] => True | e :: es => t <= e_now e /\ in_order (e_now e) es end.

(** Before the peer is accepted, nothing accepts it. *)
Definition not_accepted (es : list event) : Prop := Forall (fun e => e_kind e <> Authn) es.

(** The history of a peer that is accepted at [a]: created at [t0], connecting during [es1], accepted at [a], in use during [es2]. *)
Record accepted (t0 : Z) (p : bool) (rnd hs : Z) (es1 : list event) (a : event) (es2 : list event) : Prop := {
  acc_t0 : 0 <= t0; acc_rnd : 0 <= rnd < ping_short;
  acc_es1 : not_accepted es1; acc_a : e_kind a = Authn;
  acc_time : in_order t0 (es1 ++ a :: es2) }.

Definition peer t0 p rnd hs es : link := fst (run (fresh t0 p rnd hs) es).
Definition sent t0 p rnd hs es : list (Z * output) := snd (run (fresh t0 p rnd hs) es).

(** Nothing but silence could end this connection: no shutdown, the peer stays in the leafset, its token stays valid. *)
Definition undisturbed (es : list event) : Prop :=
  Forall (fun e => e_kind e <> Shutdown /\ e_kind e <> Leafset false /\ e_token e = true) es.

(** At every point in time at least 8 of the last 31 outcomes were answers. *)
Definition keeps_answering (es : list event) : Prop :=
  forall h rest, es = h ++ rest -> (8 <= answered h)%nat.

(** Attempts to connect: handshakes and joins. *)
Definition attempts (os : list (Z * output)) : nat :=
  length (filter (fun o => match snd o with OHandshake | OJoin => true | _ => false end) os).

Definition no_answer (es : list event) : Prop := Forall (fun e => forall r, e_kind e <> Response r) es.

Definition leaves (os : list (Z * output)) : nat :=
  length (filter (fun o => match snd o with OLeave => true | _ => false end) os).

(** Two things of the same sort sent one after the other are at least [d] apart. *)
Definition apart (d : Z) (o : output) (os : list (Z * output)) : Prop :=
  forall x t1 y t2 z, os = x ++ (t1, o) :: y ++ (t2, o) :: z -> t1 + d <= t2.

(** The times measured: answers took, and questions waited, between [lo] and [hi]. *)
Definition measured (lo hi : Z) (es : list event) : Prop :=
  Forall (fun e => forall x, (e_kind e = Response x \/ e_kind e = Timeout x) -> lo <= x <= hi) es.

(** The connection has not been ended by a shutdown or by leaving. *)
Definition still_in (l : link) : Prop := l_leave_at l <= l_join_at l.
