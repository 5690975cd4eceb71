(** What a user expects of the access to a data channel, in terms of what happened (the history). *)
From Verif Require Import Base Intent_Model.

(** the intent [t] came in while it was valid, complied with the policy, and was meant for this node *)
Definition admitted (c : conf) (h : list (env * ev)) (t : tok) : Prop :=
  exists e, In (e, Intent t) h /\ e_valid e t = true /\ e_policy e t = true /\
    (x_protected c = true -> t_aud t = x_me c \/ t_aud t = x_realm c).
(** a callback answered the question about [t] with yes *)
Definition said_yes (e : env) (t : tok) : Prop := e_in e t = Some true \/ e_out e t = Some true \/ e_global e t = true.
(** the owner of key [k] was accepted: an admitted intent of that key was put to the callbacks while valid, and one said yes *)
Definition key_accepted (c : conf) (h : list (env * ev)) (k : Z) : Prop :=
  exists t e, t_kx t = k /\ admitted c h t /\ In (e, Authz) h /\ e_valid e t = true /\ said_yes e t.

(** the peer somebody needs the key of to know the secret *)
Fixpoint rooted (x : secret) (k : Z) : Prop := match x with Kx p => p = k | Imported _ f => rooted f k | _ => False end.

(** bits of mep_type that ask for a single partner (SINGLE_RECEIVER 1, SINGLE_SENDER 16) *)
Definition several (m : Z) : Prop := Z.testbit m 0 = false /\ Z.testbit m 4 = false.
Definition all_several (h : list (env * ev)) : Prop := Forall (fun x => match snd x with Intent t => several (t_mep t) | _ => True end) h.

(** no session with the intent [t] under the current id *)
Definition no_sessions (s : st) (t : tok) : Prop :=
  find (private_id (t_fp t) (cur s)) (sess s) = None /\ find (initial_id (t_fp t) (cur s)) (sess s) = None.

(** what the user asked for: the callback of the channel decides; without one the global callback *)
Definition wish (c : conf) (e : env) (t : tok) : bool :=
  match (if x_recv c then e_in e t else e_out e t) with Some b => b | None => e_global e t end.
(** nobody was accepted in the history: no callback ever said yes, or the node is a client of a realm *)
Definition nobody (c : conf) (h : list (env * ev)) : Prop := x_client c = true \/ forall e t, In (e, Authz) h -> ~ said_yes e t.
(** id [i] belongs to an intent of the owner of key [k] that came in *)
Definition id_of (h : list (env * ev)) (k i : Z) : Prop :=
  exists t e cu, In (e, Intent t) h /\ t_kx t = k /\ (i = private_id (t_fp t) cu \/ i = initial_id (t_fp t) cu).
(** keys agreed with the owner of the intent, in both sessions *)
Definition keyed (s : st) (t : tok) : Prop :=
  find (private_id (t_fp t) (cur s)) (sess s) = Some (mkSes SPrivate (Kx (t_kx t)) (Kx (t_kx t))) /\
  find (initial_id (t_fp t) (cur s)) (sess s) = Some (mkSes SInitial (Kx (t_kx t)) (Kx (t_kx t))).
