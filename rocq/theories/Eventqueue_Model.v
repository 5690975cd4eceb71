(** Event chains: src/np_eventqueue.c and _np_keycache_execute_event of src/np_keycache.c.
    What an event does when it is delivered is a parameter: a program over some state [W] that may add events to the
    chain it runs in, or start chains of its own (calls with a NULL runtime).  Log messages are not modelled. *)
From Verif Require Import Base Dhkey_Model.

(** include/util/np_event.h: type and user data of an event; user data is a reference counted object or NULL *)
Record event := mkEv { etype : Z; data : option Z }.

Section Chains.
  Variable W : Type.
  (** _np_keycache_find: whether there is a key *)
  Variable has_key : W -> key -> bool.
  (** The rest of a handler: [Add]: np_event_runtime_add_event with the runtime of the event being handled; [Start]:
      with NULL or __np_event_runtime_start_with_event, [w] being the state at that moment. *)
  Inductive prog :=
  | Return (w : W)
  | Add (k : key) (e : event) (rest : prog)
  | Start (w : W) (k : key) (e : event) (rest : W -> prog).
  (** _np_key_handle_event *)
  Variable handle : W -> key -> event -> prog.

  (** The places in __np_event_runtime_start_with_event where a chain can be *)
  Inductive place := Next | Running (p : prog) | Waiting (p : W -> prog) | Cleanup (j : Z).
  (** np_eventqueue.c:49-52: the chain, with the loop index [chained_events_idx]; [name] tells chains apart *)
  Record chain := mkChain { name : nat; events : list (key * event); idx : Z; here : place }.
  (** What can be observed *)
  Inductive act := Added (c : nat) (k : key) (e : event) | Ran (c : nat) (k : key) (e : event) (found : bool) | Released (c : nat) (o : Z).
  Record machine := mkMachine { world : W; stack : list chain; next : nat; trace : list act }.

  (** __chained_events_size is a uint8_t *)
  Definition size (c : chain) : Z := u8 (Z.of_nat (length (events c))).
  Definition at_place (c : chain) (p : place) : chain := mkChain (name c) (events c) (idx c) p.

  (** np_eventqueue.c:62-149 __np_event_runtime_add_event with a runtime: [None] is the failed assertion of line 103 *)
  Definition add_event (c : chain) (k : key) (e : event) : option chain :=
    if size c <? 255 then Some (mkChain (name c) (events c ++ [(k, e)]) (idx c) (here c)) else None.

  (** np_eventqueue.c:157-221 __np_event_runtime_start_with_event *)
  Definition start (m : machine) (k : key) (e : event) : option machine :=
    match add_event (mkChain (next m) [] 0 Next) k e with
    | Some c => Some (mkMachine (world m) (c :: stack m) (S (next m)) (trace m ++ [Added (name c) k e]))
    | None => None
    end.

  (** One step of the chain on top.  [None]: the program has aborted. *)
  Definition step (m : machine) : option machine :=
    match stack m with
    | [] => Some m
    | c :: below =>
        let put c' := mkMachine (world m) (c' :: below) (next m) (trace m) in
        match here c with
        | Next =>
            (* lines 178-199, np_keycache.c:383-396 *)
            if idx c <? size c then
              match nth_error (events c) (Z.to_nat (idx c)) with
              | None => None
              | Some (k, e) =>
                  let found := has_key (world m) k in
                  let c' := if found then at_place c (Running (handle (world m) k e)) else mkChain (name c) (events c) (u8 (idx c + 1)) Next in
                  Some (mkMachine (world m) (c' :: below) (next m) (trace m ++ [Ran (name c) k e found]))
              end
            else Some (put (at_place c (Cleanup 0)))
        | Running (Return w) => Some (mkMachine w (mkChain (name c) (events c) (u8 (idx c + 1)) Next :: below) (next m) (trace m))
        | Running (Add k e rest) =>
            match add_event c k e with
            | None => None
            | Some c' => Some (mkMachine (world m) (at_place c' (Running rest) :: below) (next m) (trace m ++ [Added (name c) k e]))
            end
        | Running (Start w k e rest) =>
            start (mkMachine w (at_place c (Waiting rest) :: below) (next m) (trace m)) k e
        | Waiting rest => None
        | Cleanup j =>
            (* lines 205-220 *)
            if j <? size c then
              match nth_error (events c) (Z.to_nat j) with
              | None => None
              | Some (_, e) =>
                  Some (mkMachine (world m) (at_place c (Cleanup (u8 (j + 1))) :: below) (next m)
                    (trace m ++ match data e with Some o => [Released (name c) o] | None => [] end))
              end
            else
              (* the function returns; the handler that started the chain goes on *)
              Some (mkMachine (world m)
                (match below with
                 | [] => []
                 | b :: below' => (match here b with Waiting rest => at_place b (Running (rest (world m))) | _ => b end) :: below'
                 end) (next m) (trace m))
        end
    end.
  Fixpoint steps (n : nat) (m : machine) : option machine :=
    match n with O => Some m | S n' => match step m with Some m' => steps n' m' | None => None end end.
  (** np_event_runtime_start_with_event from outside *)
  Definition launch (w : W) (k : key) (e : event) : option machine := start (mkMachine w [] 0 []) k e.
End Chains.
Arguments mkMachine {W}. Arguments world {W}. Arguments stack {W}. Arguments next {W}. Arguments trace {W}.
Arguments mkChain {W}. Arguments name {W}. Arguments events {W}. Arguments idx {W}. Arguments here {W}.
Arguments Next {W}. Arguments Running {W}. Arguments Waiting {W}. Arguments Cleanup {W}.
Arguments Return {W}. Arguments Add {W}. Arguments Start {W}.
Arguments size {W}. Arguments at_place {W}. Arguments add_event {W}. Arguments start {W}. Arguments launch {W}.
Arguments step {W}. Arguments steps {W}.
