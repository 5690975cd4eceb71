(** Model of src/util/np_statemachine.c: rule tables, the automatic transition
    that an event triggers and the explicit transition to a named state.

    The callbacks of the C code (conditions, actions, entry and exit functions)
    are arbitrary functions over the machine: they may change everything,
    including the current state (a callback may handle a further event on the
    same machine), and they may fail.  [W] is whatever the callbacks work on. *)
From Verif Require Import Base.

(** include/util/np_statemachine.h:32-37 [struct np_util_statemachine_transition_s].
    [A] and [C] name actions and conditions; [None] is the NULL pointer.
    [_source_state] is never read by the code and is left out. *)
Record rule (A C : Type) := mkrule {
  r_active : bool;
  r_target : Z;
  r_action : option A;
  r_cond : option C }.
Arguments mkrule {A C}.
Arguments r_active {A C}.
Arguments r_target {A C}.
Arguments r_action {A C}.
Arguments r_cond {A C}.

(** include/util/np_statemachine.h:41-50 [struct np_util_statemachine_state_s];
    [_state_name] (logging only) and [f_error] (never called) are left out. *)
Record sstate (A C : Type) := mkstate {
  s_id : Z;
  s_enter : option A;
  s_exit : option A;
  s_rules : list (rule A C) }.
Arguments mkstate {A C}.
Arguments s_id {A C}.
Arguments s_enter {A C}.
Arguments s_exit {A C}.
Arguments s_rules {A C}.

(** The state table: an array of pointers, NULL where no state was added. *)
Definition table (A C : Type) := list (option (sstate A C)).

(** include/util/np_statemachine.h:53-61 [struct np_util_statemachine_s]:
    the current state and, as one component, all that the callbacks can reach. *)
Record machine (W : Type) := mkmachine { cur : Z; world : W }.
Arguments mkmachine {W}.
Arguments cur {W}.
Arguments world {W}.

(** Reading [machine->_state_table[s]] and following the pointer
    (np_statemachine.c:27-28, 60, 99, 141): outside the array or NULL is
    undefined behaviour. *)
Definition state_at {A C} (t : table A C) (s : Z) : outcome (sstate A C) :=
  if s <? 0 then UB
  else match nth_error t (Z.to_nat s) with
       | Some (Some st) => Ok st
       | _ => UB
       end.

Section Machine.
Context {A C E W : Type}.
Variable act : A -> E -> machine W -> outcome (machine W).
Variable cond : C -> E -> machine W -> outcome (bool * machine W).

(** [if (f != NULL) f(machine, ev)] *)
Definition call_checked (f : option A) (ev : E) (m : machine W) : outcome (machine W) :=
  match f with None => Ok m | Some a => act a ev m end.

(** [f(machine, ev)] without a NULL check *)
Definition call (f : option A) (ev : E) (m : machine W) : outcome (machine W) :=
  match f with None => UB | Some a => act a ev m end.

(** [f_condition == NULL || f_condition(machine, ev)] *)
Definition test (r : rule A C) (ev : E) (m : machine W) : outcome (bool * machine W) :=
  match r_cond r with None => Ok (true, m) | Some c => cond c ev m end.

(** np_statemachine.c:47-69: the body of the loop once a rule is taken;
    [st] is the local [current_state], [old] the local [old_state]. *)
Definition fire (t : table A C) (st : sstate A C) (old : Z) (r : rule A C) (ev : E) (m : machine W)
  : outcome (machine W) :=
  obind (call_checked (r_action r) ev m) (fun m =>
  let crossing := negb (r_target r =? s_id st) in
  obind (if crossing then call (s_exit st) ev m else Ok m) (fun m =>
  obind (if cur m =? old
         then obind (state_at t (r_target r)) (fun st' => Ok (mkmachine (r_target r) (world m), st'))
         else Ok (m, st)) (fun '(m, st') =>
  if crossing then call (s_enter st') ev m else Ok m))).

(** np_statemachine.c:33-72: the loop over the rules of the current state. *)
Fixpoint scan (t : table A C) (st : sstate A C) (old : Z) (rs : list (rule A C)) (ev : E) (m : machine W)
  : outcome (bool * machine W) :=
  match rs with
  | [] => Ok (false, m)
  | r :: rs' =>
      if r_active r then
        obind (test r ev m) (fun '(b, m) =>
        if b : bool then obind (fire t st old r ev m) (fun m => Ok (true, m))
        else scan t st old rs' ev m)
      else scan t st old rs' ev m
  end.

(** np_statemachine.c:22-75 [np_util_statemachine_invoke_auto_transition]. *)
Definition invoke (t : table A C) (ev : E) (m : machine W) : outcome (bool * machine W) :=
  obind (state_at t (cur m)) (fun st => scan t st (cur m) (s_rules st) ev m).

(** np_statemachine.c:15-20: the three results of an explicit transition. *)
Inductive result := Done | Condition_not_met | No_rule.

(** np_statemachine.c:110-159: the loop of the explicit transition.  Unlike the
    automatic one it sets the state unconditionally and stops at the first
    active rule to the target whose condition fails. *)
Fixpoint transition_scan (t : table A C) (st : sstate A C) (target : Z) (rs : list (rule A C)) (ev : E)
  (m : machine W) : outcome (result * machine W) :=
  match rs with
  | [] => Ok (No_rule, m)
  | r :: rs' =>
      if r_active r then
        if r_target r =? target then
          obind (test r ev m) (fun '(b, m) =>
          if b : bool then
            obind (call_checked (r_action r) ev m) (fun m =>
            let crossing := negb (r_target r =? s_id st) in
            obind (if crossing then call (s_exit st) ev m else Ok m) (fun m =>
            obind (state_at t (r_target r)) (fun st' =>
            let m := mkmachine (r_target r) (world m) in
            obind (if crossing then call (s_enter st') ev m else Ok m) (fun m => Ok (Done, m)))))
          else Ok (Condition_not_met, m))
        else transition_scan t st target rs' ev m
      else transition_scan t st target rs' ev m
  end.

(** np_statemachine.c:92-162 [np_util_statemachine_transition]; [ev] is the
    no-operation event the code passes to every callback. *)
Definition transition (t : table A C) (target : Z) (ev : E) (m : machine W) : outcome (result * machine W) :=
  obind (state_at t (cur m)) (fun st => transition_scan t st target (s_rules st) ev m).
End Machine.

(** np_statemachine.c:168-193 [np_util_statemachine_add_state]: a fresh state
    without rules, stored at its own number. *)
Definition add_state {A C} (t : table A C) (id : Z) (enter exit : option A) : outcome (table A C) :=
  if (id <? 0) || (Z.of_nat (length t) <=? id) then UB
  else Ok (upd t (Z.to_nat id) (Some (mkstate id enter exit []))).

(** np_statemachine.c:195-228 [np_util_statemachine_add_transition]: the rule is
    appended to the rules of state [s]; the uint8_t rule counter must stay below
    255 (assert). *)
Definition add_transition {A C} (t : table A C) (s : Z) (r : rule A C) : outcome (table A C) :=
  obind (state_at t s) (fun st =>
  if Z.of_nat (length (s_rules st)) + 1 <? 255
  then Ok (upd t (Z.to_nat s) (Some (mkstate (s_id st) (s_enter st) (s_exit st) (s_rules st ++ [r]))))
  else Abort).

(** A table is built by a program of these two calls, as in np_key.c:166-486. *)
Inductive decl (A C : Type) :=
| DState (id : Z) (enter exit : option A)
| DRule (source target : Z) (action : option A) (condition : option C).
Arguments DState {A C}.
Arguments DRule {A C}.

(** include/util/np_statemachine.h:88-103, 105-117: the two macros; rules are active. *)
Definition declare {A C} (t : table A C) (d : decl A C) : outcome (table A C) :=
  match d with
  | DState id en ex => add_state t id en ex
  | DRule s tg a c => add_transition t s (mkrule true tg a c)
  end.

Fixpoint declare_all {A C} (t : table A C) (ds : list (decl A C)) : outcome (table A C) :=
  match ds with
  | [] => Ok t
  | d :: ds' => obind (declare t d) (fun t => declare_all t ds')
  end.
