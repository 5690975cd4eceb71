(** The life of a key: theorems.  Every statement is about all sequences of moves, that is about every order in which
    events are created, delivered and handled, and about every answer of clocks, tables, filters and callbacks. *)
From Verif Require Import Base Statemachine_Model Key_Model Key_Spec Key_Proofs Key_Flat.

(** ** The table is built without failing, and every state of it exists. *)
Theorem C44_table : exists t, declare_all (repeat None MAX_KEY_STATES) key_decls = Ok t /\ key_table = t /\
  forall s, 0 <= s <= IN_DESTROY -> exists st, state_at key_table s = Ok st /\ s_id st = s /\ s_enter st <> None /\ s_exit st <> None.
Proof.
  assert (E : exists t, declare_all (repeat None MAX_KEY_STATES) key_decls = Ok t) by (eexists; vm_compute; reflexivity).
  destruct E as [t E]. exists t. split; [exact E|]. split; [unfold key_table; rewrite E; reflexivity|].
  assert (K : forallb (fun n => match state_at key_table (Z.of_nat n) with
               | Ok st => (s_id st =? Z.of_nat n) && match s_enter st, s_exit st with Some _, Some _ => true | _, _ => false end
               | _ => false end) (seq 0 11) = true) by (vm_compute; reflexivity).
  intros s H. rewrite forallb_forall in K. specialize (K (Z.to_nat s)).
  unfold IN_DESTROY in H. rewrite in_seq, Z2Nat.id in K by lia.
  assert (L : (0 <= Z.to_nat s < 0 + 11)%nat) by lia. apply K in L. clear K.
  destruct (state_at key_table s) as [st| |]; try discriminate L. exists st. split; [reflexivity|].
  apply andb_prop in L as [L1 L2]. split; [lia|].
  destruct (s_enter st), (s_exit st); try discriminate L2. split; discriminate.
Qed.

(** ** C44: messages of a peer are processed only after the peer was accepted *)

Definition chk_process (id : Z) (r : rule action condition) : bool :=
  match r_action r with
  | Some A_handle_usr_msg | Some A_handle_pheromone | Some A_handle_np_discovery | Some A_handle_np_forward => in_use id
  | Some A_handle_np_message =>
      in_use id || match r_cond r with Some C_is_join_in_message => true | _ => false end
  | Some A_node_send_direct => match r_cond r with Some C_is_handshake_message => true | _ => false end
  | Some A_node_send_encrypted =>
      match r_cond r with
      | Some C_is_join_out_message => true
      | Some C_is_np_messagepart => in_use id
      | _ => false
      end
  | Some A_property_handle_in_msg => match r_cond r with Some C_is_sender_token_available => true | _ => false end
  | Some A_property_handle_out_msg => match r_cond r with Some C_is_receiver_token_available => true | _ => false end
  | Some A_identity_handle_authn => match r_cond r with Some C_is_authn_request => true | _ => false end
  | Some A_identity_handle_authz => match r_cond r with Some C_is_authz_request => true | _ => false end
  | _ => true
  end.
Lemma table_process : rules_ok chk_process = true.
Proof. vm_compute. reflexivity. Qed.
Definition guarded (o : option action) : bool :=
  match o with
  | Some A_handle_usr_msg | Some A_handle_pheromone | Some A_handle_np_discovery | Some A_handle_np_forward
  | Some A_handle_np_message | Some A_node_send_direct | Some A_node_send_encrypted | Some A_property_handle_in_msg
  | Some A_property_handle_out_msg | Some A_identity_handle_authn | Some A_identity_handle_authz => true
  | _ => false
  end.
Lemma table_process_state : states_ok (fun st => negb (guarded (s_enter st)) && negb (guarded (s_exit st))) = true.
Proof. vm_compute. reflexivity. Qed.

(** A guarded action that ran was the action of a rule of the table. *)
Lemma ran_rule ms s l1 i n d a e l2 : steps ms empty = Some s -> trace s = l1 ++ Ran i n d a e :: l2 ->
  guarded (Some a) = true -> good l2 /\
  exists id r, chk_process id r = true /\ r_action r = Some a /\ passed l2 i n e r /\ (in_use id = true -> accepted l2 d).
Proof.
  intros R T Gd. pose proof (reach_inv _ _ R) as (G & _). rewrite T in G. apply good_split in G as [O G].
  split; [exact G|]. destruct O as [(id & st & r & St & Ir & A & P & U)|(id & st & St & E)].
  - exists id, r. split; [exact (rule_fact _ _ _ _ table_process St Ir)|]. auto.
  - exfalso. pose proof (state_fact _ _ _ table_process_state St) as K. cbn beta in K.
    destruct E as [E|E]; rewrite E, Gd in K; rewrite ?andb_false_r in K; discriminate K.
Qed.

Lemma passed_holds tr i n e r c : good tr -> passed tr i n e r -> r_cond r = Some c ->
  exists v ty d, In (Tested i n c e v true) tr /\ holds c ty d v e = true.
Proof.
  unfold passed. intros G P C. rewrite C in P. destruct P as (v & Hv).
  destruct (tested_holds _ _ _ _ _ _ G Hv) as (ty & d & Hh). exists v, ty, d. auto.
Qed.

Theorem C44_messages_need_acceptance : forall ms s l1 i n d a e l2,
  steps ms empty = Some s -> trace s = l1 ++ Ran i n d a e :: l2 -> processes a e = true -> accepted l2 d.
Proof.
  intros ms s l1 i n d a e l2 R T P.
  assert (Gd : guarded (Some a) = true) by (destruct a; try discriminate P; reflexivity).
  destruct (ran_rule _ _ _ _ _ _ _ _ _ R T Gd) as (G & id & r & K & A & Ps & U). unfold chk_process in K. rewrite A in K.
  destruct a; try discriminate P; auto.
  destruct (in_use id) eqn:W; [auto|]. exfalso. cbn in K.
  destruct (r_cond r) as [[]|] eqn:C; try discriminate K.
  destruct (passed_holds _ _ _ _ _ _ G Ps C) as (v & ty & d' & _ & Hh). cbn [holds] in Hh.
  apply andb_prop in Hh as [_ Hh]. cbn [processes] in P. rewrite Hh in P. discriminate P.
Qed.

(** The callback is asked only about valid node or identity tokens that the filter has not seen. *)
Theorem C44_asked_about_valid_tokens : forall ms s l1 i n e b l2,
  steps ms empty = Some s -> trace s = l1 ++ Asked i n e b :: l2 ->
  exists v k, In (Tested i n C_is_authn_request e v true) l2 /\ e_data e = PToken k /\ v_valid v = true /\
    v_duplicate v = false /\ (flag (tk_type k) aaatoken_identity = true \/ flag (tk_type k) aaatoken_node = true).
Proof.
  intros ms s l1 i n e b l2 R T. pose proof (reach_inv _ _ R) as (G & _). rewrite T in G.
  apply good_split in G as [(d & Hin) G]. apply in_split in Hin as (m1 & m2 & E).
  assert (T' : trace s = (l1 ++ Asked i n e b :: m1) ++ Ran i n d A_identity_handle_authn e :: m2)
    by (rewrite T, E, <- app_assoc; reflexivity).
  destruct (ran_rule _ _ _ _ _ _ _ _ _ R T' eq_refl) as (G' & id & r & K & A & Ps & U). unfold chk_process in K. rewrite A in K.
  destruct (r_cond r) as [[]|] eqn:C; try discriminate K.
  destruct (passed_holds _ _ _ _ _ _ G' Ps C) as (v & ty & d' & Hv & Hh). cbn [holds] in Hh.
  rewrite !andb_true_iff in Hh. destruct Hh as [_ Hh]. unfold token_has in Hh.
  destruct (e_data e) as [| |k| | | | | | |]; try discriminate Hh.
  rewrite !andb_true_iff, orb_true_iff in Hh. exists v, k. split; [rewrite E; apply in_or_app; right; right; exact Hv|].
  split; [reflexivity|]. destruct Hh as [[Hd Ht] Hv']. rewrite negb_true_iff in Hd. auto.
Qed.

(** ** C45: a removed key handles no further events *)
Theorem C45_removed_keys_are_inert : forall ms s l1 i n d a e l2 e' l3,
  steps ms empty = Some s ->
  trace s = l1 ++ Ran i n d a e :: l2 ++ Started i n e' :: l3 -> ~ destroyed l3 i.
Proof.
  intros ms s l1 i n d a e l2 e' l3 R T D.
  pose proof (steps_dinv _ _ _ dinv_empty R) as (_ & Cl & _).
  apply (Cl l1 (l2 ++ Started i n e' :: l3) i n d a e T). exists l2, e', l3. auto.
Qed.

(** ** C46: what is sent before the peer was accepted *)
Theorem C46_unencrypted_is_handshake : forall ms s l1 i n d e l2,
  steps ms empty = Some s -> trace s = l1 ++ Ran i n d A_node_send_direct e :: l2 ->
  exists aud, e_data e = PPart S_handshake aud.
Proof.
  intros ms s l1 i n d e l2 R T.
  destruct (ran_rule _ _ _ _ _ _ _ _ _ R T eq_refl) as (G & id & r & K & A & Ps & U). unfold chk_process in K. rewrite A in K.
  destruct (r_cond r) as [[]|] eqn:C; try discriminate K.
  destruct (passed_holds _ _ _ _ _ _ G Ps C) as (v & ty & d' & _ & Hh). cbn [holds] in Hh.
  apply andb_prop in Hh as [_ Hh]. unfold subject_in in Hh. destruct (e_data e); try discriminate Hh.
  cbn in Hh. destruct s0; try discriminate Hh. eauto.
Qed.

Theorem C46_data_needs_acceptance : forall ms s l1 i n d e l2,
  steps ms empty = Some s -> trace s = l1 ++ Ran i n d A_node_send_encrypted e :: l2 ->
  exists sj aud, e_data e = PPart sj aud /\ sj <> S_handshake /\ (sj = S_join \/ sj = S_leave \/ accepted l2 d).
Proof.
  intros ms s l1 i n d e l2 R T.
  destruct (ran_rule _ _ _ _ _ _ _ _ _ R T eq_refl) as (G & id & r & K & A & Ps & U). unfold chk_process in K. rewrite A in K.
  destruct (r_cond r) as [[]|] eqn:C; try discriminate K;
  destruct (passed_holds _ _ _ _ _ _ G Ps C) as (v & ty & d' & _ & Hh); cbn [holds] in Hh.
  - apply andb_prop in Hh as [_ Hh]. unfold subject_in in Hh. destruct (e_data e) as [| | | |sj aud| | | | |]; try discriminate Hh.
    exists sj, aud. split; [reflexivity|]. cbn in Hh. destruct sj; try discriminate Hh; split; auto; discriminate.
  - rewrite !andb_true_iff in Hh. destruct Hh as [[[Hp _] _] Hn]. unfold part_event in Hp.
    rewrite !andb_true_iff in Hp. destruct Hp as [_ Hp]. destruct (e_data e) as [| | | |sj aud| | | | |]; try discriminate Hp.
    exists sj, aud. split; [reflexivity|]. split; [intros ->; discriminate Hn|]. auto.
Qed.

(** ** C47: a connection that was shut down handles no further data *)
Theorem C47_shut_down_connections_are_silent : forall ms s l1 i n d a e l2,
  steps ms empty = Some s -> all_unnested ms empty ->
  trace s = l1 ++ Ran i n d a e :: l2 -> disconnected l2 i -> receives a = false.
Proof.
  intros ms s l1 i n d a e l2 R U T D. pose proof (steps_finv _ _ _ finv_empty U R) as (_ & _ & Tr & _).
  apply (Tr _ _ _ _ _ _ _ T). exact D.
Qed.

(** ** C48: subjects *)

(** From the moment a request to disable a subject is honoured nothing but a request to enable it is. *)
Theorem C48_disabled_subjects_are_silent : forall ms s l1 i n d a e l2 m d' e' l3,
  steps ms empty = Some s -> all_unnested ms empty ->
  trace s = l1 ++ Ran i n d a e :: l2 ++ Ran i m d' A_property_lifecycle_set e' :: l3 -> disables e' ->
  (forall m d e, ~ In (Ran i m d A_property_lifecycle_set e) l2) ->
  a = A_keystate_noop \/ (a = A_property_lifecycle_set /\ enables e).
Proof.
  intros ms s l1 i n d a e l2 m d' e' l3 R U T D N. pose proof (steps_finv _ _ _ finv_empty U R) as (_ & _ & Tr & _).
  apply (Tr _ _ _ _ _ _ _ T). exists l2, m, d', e', l3. auto.
Qed.

(** A message reaches the handling of its subject, inbound or outbound, only for internal subjects or with an
    established session and below the threshold. *)
Theorem C48_messages_need_a_session : forall ms s l1 i n d a e l2,
  steps ms empty = Some s -> trace s = l1 ++ Ran i n d a e :: l2 ->
  a = A_property_handle_in_msg \/ a = A_property_handle_out_msg ->
  exists c v, In (Tested i n c e v true) l2 /\
    (v_internal v = true \/ v_below_threshold v = true /\ v_session v = true).
Proof.
  intros ms s l1 i n d a e l2 R T Ha.
  assert (Gd : guarded (Some a) = true) by (destruct Ha as [->| ->]; reflexivity).
  destruct (ran_rule _ _ _ _ _ _ _ _ _ R T Gd) as (G & id & r & K & A & Ps & U). unfold chk_process in K. rewrite A in K.
  destruct Ha as [->| ->]; destruct (r_cond r) as [[]|] eqn:C; try discriminate K;
    destruct (passed_holds _ _ _ _ _ _ G Ps C) as (v & ty & d' & Hv & Hh); cbn [holds] in Hh;
    rewrite andb_true_iff, orb_true_iff, andb_true_iff in Hh; eexists _, v; (split; [exact Hv|tauto]).
Qed.

(** ** Concrete runs *)
Definition view0 (answer : bool) : view :=
  mkView 1 true true true false false true true true false false answer false false false true.
Definition bad_view : view :=
  mkView 1 true true true false false true true true true true true false false false true.
Definition go_times (i n : nat) : list move := repeat (Go i (view0 true)) n.
Definition own_token : token := mkToken aaatoken_node true 1 1 0 0.
Definition hs_token : token := mkToken aaatoken_handshake false 3 60 0 60.
Definition peer_token : token := mkToken aaatoken_node false 3 60 0 0.
Definition ev (t : Z) (p : payload) (target : Z) : event := mkEvent t p target 70.
Definition user_part : event := ev (evt_external + evt_message) (PPart (S_user 5) 1) 70.

(** our identity (key 1), a connection (key 70) that is set up by a handshake, a join that asks the callback, the
    answer reaching the connection *)
Definition setup : list move :=
  [New 1 0; Mail 1 (ev (evt_internal + evt_token) (PToken own_token) 1); Start 0 0] ++ go_times 0 11 ++
  [New 70 0; Mail 70 (ev (evt_external + evt_token) (PToken hs_token) 70); Start 1 1] ++ go_times 1 7.
Definition join (answer : bool) : list move :=
  [Mail 1 (ev (evt_authn + evt_external + evt_token) (PToken peer_token) 70); Start 0 2] ++ repeat (Go 0 (view0 answer)) 4.
Definition join_answer : list move := Start 1 4 :: go_times 1 8.
Definition actions (ms : list move) (i : nat) : option (list action) :=
  option_map (fun s => flat_map (fun o => match o with Ran j _ _ a _ => if (j =? i)%nat then [a] else [] | _ => [] end) (rev (trace s)))
             (steps ms empty).

(** C44: after the join was accepted a user message is processed; before it is not. *)
Example C44_messages_ex :
  actions (setup ++ join true ++ join_answer ++ [Mail 70 user_part; Start 1 5] ++ go_times 1 4) 1 =
  Some [A_alias_set; A_keystate_noop; A_create_session; A_node_upgrade; A_keystate_noop; A_keystate_noop; A_handle_usr_msg].
Proof. vm_compute. reflexivity. Qed.
Example C44_denied_ex :
  actions (setup ++ join false ++ [Mail 70 user_part; Start 1 4] ++ go_times 1 6) 1 =
  Some [A_alias_set; A_keystate_noop; A_create_session].
Proof. vm_compute. reflexivity. Qed.
Example C44_asked_ex :
  option_map (fun s => filter (fun o => match o with Asked _ _ _ _ => true | _ => false end) (trace s)) (steps (setup ++ join true) empty)
  = Some [Asked 0 2 (ev (evt_authn + evt_external + evt_token) (PToken peer_token) 70) true].
Proof. vm_compute. reflexivity. Qed.

(** C47, C45: a shut down connection ignores a user message and is removed instead; then it does nothing any more. *)
Definition shut_down : list move :=
  setup ++ join true ++ join_answer ++ [Mail 70 (ev (evt_internal + evt_shutdown) PNone 70); Start 1 5] ++ go_times 1 10 ++
  [Mail 70 user_part; Start 1 6] ++ go_times 1 11.
Example C47_ex : actions shut_down 1 =
  Some [A_alias_set; A_keystate_noop; A_create_session; A_node_upgrade; A_keystate_noop; A_keystate_noop;
        A_alias_shutdown; A_alias_destroy; A_keystate_noop; A_key_destroy] /\
  all_unnested shut_down empty.
Proof. split; [vm_compute; reflexivity|]. vm_compute. repeat split. Qed.
Example C45_ex : actions (shut_down ++ [Mail 70 user_part; Start 1 7] ++ go_times 1 1) 1 = actions shut_down 1.
Proof. vm_compute. reflexivity. Qed.

(** C46: handshake, join and a ping on a node key (60) that was not accepted: the ping is dropped.
    After the callback accepted an identity token (fingerprint 99) that names 60 as its partner the ping is sent. *)
Definition out (sj : subject) : event := ev (evt_internal + evt_message) (PPart sj 60) 60.
Definition identity_token : token := mkToken aaatoken_identity false 3 99 60 0.
Definition node_setup : list move :=
  [New 1 0; Mail 1 (ev (evt_internal + evt_token) (PToken own_token) 1); Start 0 0] ++ go_times 0 11 ++
  [New 60 0; Mail 60 (ev evt_internal (PNode true false) 60); Start 1 1] ++ go_times 1 6 ++
  [Mail 60 (out S_handshake); Start 1 2] ++ go_times 1 3 ++
  [Mail 60 (out S_join); Start 1 3] ++ go_times 1 4 ++
  [Mail 60 (out S_ping); Start 1 4] ++ go_times 1 5.
Definition node_join : list move :=
  [Mail 1 (ev (evt_authn + evt_external + evt_token) (PToken identity_token) 70); Start 0 5] ++ go_times 0 4 ++
  [Start 1 6] ++ go_times 1 11 ++ [Start 1 4] ++ go_times 1 3.
Example C46_ex : actions node_setup 1 =
  Some [A_node_set_node; A_keystate_noop; A_create_client_network; A_node_send_direct; A_node_send_encrypted; A_node_discard_message].
Proof. vm_compute. reflexivity. Qed.

(** The callback need not have been asked about the token of the node itself: any identity token that claims the node
    as its partner opens it. *)
Definition about (d : Z) (o : obs) : bool :=
  match o with Asked _ _ e _ => token_has (e_data e) (fun k => tk_fingerprint k =? d) | _ => false end.
Definition sent_encrypted (d : Z) (sj : subject) (o : obs) : bool :=
  match o with
  | Ran _ _ d' A_node_send_encrypted e => (d' =? d) && subject_in (e_data e) [sj]
  | _ => false
  end.
Theorem C46_own_token_refuted : exists ms s, steps ms empty = Some s /\
  existsb (sent_encrypted 60 S_ping) (trace s) = true /\ existsb (about 60) (trace s) = false.
Proof.
  assert (K : option_map (fun s => (existsb (sent_encrypted 60 S_ping) (trace s), existsb (about 60) (trace s)))
                (steps (node_setup ++ node_join) empty) = Some (true, false)) by (vm_compute; reflexivity).
  exists (node_setup ++ node_join). destruct (steps (node_setup ++ node_join) empty) as [s|]; [|discriminate K].
  exists s. cbn [option_map] in K. split; [reflexivity|]. split; congruence.
Qed.

(** C48: a subject (key 5) is set up, disabled, gets a message, is enabled again and gets a message. *)
Definition life_cycle : list move :=
  [New 5 0; Mail 5 (ev (evt_property + evt_internal) PConf 5); Start 0 0] ++ go_times 0 12 ++
  [Mail 5 (ev (evt_property + evt_internal + evt_disable) PRun 5); Start 0 1] ++ go_times 0 5 ++
  [Mail 5 (ev (evt_message + evt_external) PMessage 5); Start 0 2] ++ go_times 0 2 ++
  [Mail 5 (ev (evt_property + evt_internal + evt_enable) PRun 5); Start 0 3] ++ go_times 0 5 ++
  [Mail 5 (ev (evt_message + evt_external) PMessage 5); Start 0 4] ++ go_times 0 6.
Example C48_ex : actions life_cycle 0 =
  Some [A_set_property; A_keystate_noop; A_keystate_noop;
        A_property_lifecycle_set; A_keystate_noop; A_keystate_noop;
        A_property_lifecycle_set; A_keystate_noop; A_keystate_noop; A_property_handle_in_msg] /\
  all_unnested life_cycle empty.
Proof. split; [vm_compute; reflexivity|]. vm_compute. repeat split. Qed.

Print Assumptions C44_table.
Print Assumptions C44_messages_need_acceptance.
Print Assumptions C44_asked_about_valid_tokens.
Print Assumptions C45_removed_keys_are_inert.
Print Assumptions C46_unencrypted_is_handshake.
Print Assumptions C46_data_needs_acceptance.
Print Assumptions C47_shut_down_connections_are_silent.
Print Assumptions C48_disabled_subjects_are_silent.
Print Assumptions C48_messages_need_a_session.
Print Assumptions C46_own_token_refuted.
