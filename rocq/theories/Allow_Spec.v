(** The calls of an application about one channel: np_add_receive_cb (np_legacy.c:299-326) opens it for receiving, np_send
    (neuropil.c:654-664) for sending, np_set_mx_properties in the directions of its role, which is the same as [Receive],
    [Send] or both; [Decide]: np_set_mx_authorize_cb. *)
From Verif Require Import Base Allow_Model.

Inductive call {tok : Type} := Receive | Send | Decide (f : tok -> bool).
Arguments call : clear implicits.
Definition perform {tok} (c : channel tok) (x : call tok) : channel tok :=
  match x with Receive => open_in c | Send => open_out c | Decide f => snd (np_set_mx_authorize_cb c f) end.
Definition after {tok} (l : list (call tok)) : channel tok := fold_left perform l unused.
(** the first callback given after the direction was opened *)
Fixpoint first_given {tok} (l : list (call tok)) : option (tok -> bool) :=
  match l with [] => None | Decide f :: _ => Some f | _ :: r => first_given r end.
Fixpoint given_in {tok} (l : list (call tok)) : option (tok -> bool) := match l with [] => None | Receive :: r => first_given r | _ :: r => given_in r end.
Fixpoint given_out {tok} (l : list (call tok)) : option (tok -> bool) := match l with [] => None | Send :: r => first_given r | _ :: r => given_out r end.
(** who is asked about a channel used in both directions: the callback of the sending direction, if there is one *)
Definition asked {tok} (l : list (call tok)) : option (tok -> bool) := match given_out l with Some f => Some f | None => given_in l end.
