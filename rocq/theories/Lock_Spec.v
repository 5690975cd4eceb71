(** What the statements about threads speak of. *)
From Coq Require Import List Arith Bool.
From Verif Require Import Lock_Model.
Import ListNotations.

(** How many callbacks of channel [s] thread [t] is in, after what was seen. *)
Fixpoint inside_from (d t s : nat) (tr : list (nat * act)) : nat :=
  match tr with
  | [] => d
  | (u, CbIn x) :: r =>
      inside_from (if (u =? t) && (x =? s) then S d else d) t s r
  | (u, CbOut x) :: r =>
      inside_from (if (u =? t) && (x =? s) then Nat.pred d else d) t s r
  | _ :: r => inside_from d t s r
  end.
Definition inside (t s : nat) (st : state) : nat := inside_from 0 t s (seen st).

(** Nobody has anything left to do. *)
Definition finished (st : state) : Prop := forall t, nth t (todo st) [] = [].

(** Somebody has something left to do, and nobody can go on. *)
Definition stuck (st : state) : Prop := ~ finished st /\ forall t, step t st = None.

(** Which channels' receiving keys a call can touch. *)
Definition touches (c : confs) (x : call) (s : nat) : Prop :=
  match x with
  | Send s' => s' = s /\ exists m, tx_conf c s = Some m /\ inbound m = true
  | AddReceiveCb s' => s' = s /\ match rx_conf c s with Some m => inbound m = true | None => True end
  | HasReceiverFor _ => False
  end.

(** The callbacks of a channel touch only the channel itself and channels of lower level. *)
Definition stratified (c : confs) (level : nat -> nat) (j : job) : Prop :=
  match j with
  | Deliver s cbs =>
      forall cb x s', In cb cbs -> In x cb -> touches c x s' -> s' = s \/ level s' < level s
  | _ => True
  end.

(** A callback that sends, and asks for receivers, and nothing else. *)
Definition sends_only (x : call) : Prop :=
  match x with AddReceiveCb _ => False | _ => True end.

(** No alias key has a network of its own: what UDP peers get. *)
Definition no_own_network (j : netjob) : Prop :=
  match j with AliasSet _ (Some _) | AliasEnd _ (Some _) => False | _ => True end.

(** Channels set with np_set_mx_properties: each with its role. *)
Definition with_roles (roles : nat -> option role) : confs :=
  Confs (fun s => match roles s with
                  | Some Consumer => Some (mode_of_role Consumer)
                  | Some Prosumer => Some (mode_of_role Prosumer)
                  | _ => None end)
        (fun s => match roles s with
                  | Some Provider => Some (mode_of_role Provider)
                  | Some Prosumer => Some (mode_of_role Prosumer)
                  | _ => None end).
