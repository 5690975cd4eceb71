(** What a table driven state machine is supposed to do, independent of the
    loop in the code. *)
From Verif Require Import Base Statemachine_Model.

(** A table in which every state sits at its own number, has entry and exit
    functions, and every rule leads to a state of the table. *)
Definition well_formed {A C} (t : table A C) : Prop :=
  forall i st, state_at t i = Ok st ->
    s_id st = i /\ s_enter st <> None /\ s_exit st <> None /\
    forall r, In r (s_rules st) -> exists st', state_at t (r_target r) = Ok st'.

(** ** Callbacks that only leave a trace

    [holds c ev] says whether condition [c] is true for the event. *)
Section Trace.
Context {A C E : Type}.
Variable holds : C -> E -> bool.

Inductive obs := Asked (c : C) | Ran (a : A).

Definition trace_act (a : A) (ev : E) (m : machine (list obs)) : outcome (machine (list obs)) :=
  Ok (mkmachine (cur m) (world m ++ [Ran a])).
Definition trace_cond (c : C) (ev : E) (m : machine (list obs)) : outcome (bool * machine (list obs)) :=
  Ok (holds c ev, mkmachine (cur m) (world m ++ [Asked c])).

(** A rule is enabled for an event: active, and no condition or one that holds. *)
Definition enabled (r : rule A C) (ev : E) : Prop :=
  r_active r = true /\ match r_cond r with None => True | Some c => holds c ev = true end.

(** The functions that were run, in order. *)
Fixpoint ran (l : list obs) : list A :=
  match l with
  | [] => []
  | Ran a :: l' => a :: ran l'
  | Asked _ :: l' => ran l'
  end.

Definition opt {X} (x : option X) : list X := match x with None => [] | Some a => [a] end.

(** What must run when rule [r] of state [st] leads to state [st']: the action
    of the rule, and, only when the state is left, its exit function followed by
    the entry function of the new state. *)
Definition must_run (st : sstate A C) (r : rule A C) (st' : sstate A C) : list A :=
  opt (r_action r) ++ (if r_target r =? s_id st then [] else opt (s_exit st) ++ opt (s_enter st')).
End Trace.

(** ** Arbitrary callbacks *)
Section Any.
Context {A C E W : Type}.
Variable act : A -> E -> machine W -> outcome (machine W).
Variable cond : C -> E -> machine W -> outcome (bool * machine W).

(** The rules [rs] were tried one after the other, without any being enabled,
    and their conditions took the machine from the first to the second. *)
Inductive refused (ev : E) : list (rule A C) -> machine W -> machine W -> Prop :=
| refused_none m : refused ev [] m m
| refused_inactive r rs m m' : r_active r = false -> refused ev rs m m' -> refused ev (r :: rs) m m'
| refused_condition r rs c m m1 m' :
    r_active r = true -> r_cond r = Some c -> cond c ev m = Ok (false, m1) ->
    refused ev rs m1 m' -> refused ev (r :: rs) m m'.

(** Rule [r] is enabled; evaluating its condition takes the machine to the second. *)
Definition taken (ev : E) (r : rule A C) (m m' : machine W) : Prop :=
  r_active r = true /\
  match r_cond r with None => m' = m | Some c => cond c ev m = Ok (true, m') end.

(** Running an optional callback. *)
Definition runs (ev : E) (f : option A) (m m' : machine W) : Prop :=
  match f with None => m' = m | Some a => act a ev m = Ok m' end.
End Any.
