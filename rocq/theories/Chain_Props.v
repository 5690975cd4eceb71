From Coq Require Import String.
From Verif Require Import Base Mx_Model Chain_Model Chain_Spec Chain_Proofs.
Open Scope list_scope.
Open Scope Z_scope.

Definition set_of (role ack aud : Z) : props := mkProps role ack (repeat 0 32) aud (repeat 0 32) 1 16 2 3 300000000 20000000 20000000.
Definition topic : list Z := List.concat (repeat (text "0123456789abcdef") 4).
Lemma topic_text : subject_text topic.
Proof.
  split; [reflexivity|]. assert (H : forallb (fun c => ((48 <=? c) && (c <=? 57)) || ((97 <=? c) && (c <=? 102))) topic = true) by reflexivity.
  rewrite forallb_forall in H. apply Forall_forall. intros c X. specialize (H c X). lia.
Qed.

(** ** C112: encrypted before it leaves, decrypted before it is given *)
(** Whatever the application calls and whatever comes in: no message is handed to the network that was not encrypted before. *)
Theorem C112_sealed : forall subject h t n, subject_text subject -> history subject h start = Ok (t, n) -> sealed_first t.
Proof.
  intros subject h t n T H.
  apply (history_inv subject (fun _ => True) formed sealed_first) in H; auto using formed_start, sealed_app; [apply H | | |apply Forall_forall; auto].
  - intros x u y X. destruct x; discriminate.
  - intros e k s k' _ F X. split; [eapply formed_happen; eauto | eapply sealed_happen; eauto].
Qed.
(** If the channel was never virtual, no message is given to a callback that was not opened with the key of a session before. *)
Theorem C112_opened_partial : forall subject h t n, subject_text subject -> no_virtual h ->
  history subject h start = Ok (t, n) -> opened_first t.
Proof.
  intros subject h t n T V H.
  apply (history_inv subject not_virtual open_channel opened_first) in H; auto using open_start, opened_app; [apply H | | |].
  - intros x u i y X. destruct x; discriminate.
  - intros e k s k' N F X. split; [eapply open_happen; eauto | eapply opened_happen; eauto].
  - apply Forall_forall. intros e X. destruct e as [[]| |]; cbn; auto.
Qed.
(** A channel whose first settings are virtual never decrypts: when it is made public later, the callbacks are called with every message,
    encrypted as it came, by whomever. *)
Theorem C112_unopened_refuted : forall subject h0 p h1 t n m o, subject_text subject -> Forall unconcerned h0 -> virtual p -> receives p ->
  history subject (h0 ++ Call (Set_ p) :: h1) start = Ok (t, n) -> ~ came (i_uuid m) (h0 ++ Call (Set_ p) :: h1) ->
  rx (mx n) = Some (o, false) -> c_aud_type (obj (mx n) o) <> 1 ->
  forall i, (i < listeners (mx n))%nat -> In (Given (i_uuid m) i) (fst (arrive m n)) /\ ~ In (Opened (i_uuid m)) (fst (arrive m n)).
Proof.
  intros subject h0 p h1 t n m o T U V R H N E A i L. assert (Ac : accepted p) by (intros [X _]; unfold virtual in V; congruence).
  destruct (set_first subject h0 p h1 t n T U Ac R H) as (_ & _ & C). unfold virtual in V. rewrite V in C.
  rewrite (arrive_eq m n o _ _ E C), (not_known _ _ _ _ _ H N), andb_false_r. cbn [negb orb andb app].
  destruct (Z.eqb_spec (c_aud_type (obj (mx n) o)) 1); [contradiction|]. cbn [negb Z.eqb Pos.eqb andb orb]. split.
  - apply in_app_iff. right. apply in_map_iff. exists i. split; [reflexivity|]. apply in_seq. lia.
  - intros X. apply in_app_iff in X as [X|X].
    + unfold acks in X. destruct (_ && _); [destruct X as [X|[]]; discriminate | contradiction].
    + apply in_map_iff in X as (j & X & _). discriminate.
Qed.
(** ... and what it sends never leaves, although np_send says ok. *)
Theorem C112_mute_refuted : forall subject p h t n, subject_text subject -> virtual p -> sends p ->
  history subject (Call (Set_ p) :: h) start = Ok (t, n) -> forall u, ~ In (Sent u) t.
Proof. intros subject p h t n T V Sd H u. apply (mute subject p h t n T V Sd H). Qed.

Example C112_ex :
  exists n, history topic [Call (Set_ (set_of 2 1 0)); Call Listen; SendMsg (mkOut 1 true); SendMsg (mkOut 2 false); Arrive (mkIn 3 true true true);
                           Arrive (mkIn 4 true true false)] start
  = Ok ([Sealed 1; Sent 1; Acked 3; Opened 3; Given 3 0; Acked 4], n).
Proof. eexists. vm_compute. reflexivity. Qed.
Example C112_unopened_ex :
  exists n o, history topic [Call (Set_ (set_of 2 0 1)); Call (Set_ (set_of 2 0 0)); Call Listen] start = Ok ([], n) /\
    rx (mx n) = Some (o, false) /\ c_aud_type (obj (mx n) o) = 0 /\ listeners (mx n) = 1%nat /\ fst (arrive (mkIn 7 false false false) n) = [Given 7 0].
Proof. eexists _, _. split; [vm_compute; reflexivity|]. repeat split. Qed.
Example C112_mute_ex :
  exists n, history topic [Call (Set_ (set_of 2 0 1)); Call (Set_ (set_of 2 0 0)); SendMsg (mkOut 1 true)] start = Ok ([], n) /\
    fst (np_send (mx n)) = (true, true).
Proof. eexists. split; vm_compute; reflexivity. Qed.

(** ** C113: acknowledgements follow the settings *)
(** The settings come before the first callback, and later settings want the same acknowledgements: a message that asks for one, that was
    not there before and to whose sender there is a way is acknowledged just if the settings say so; no other message is acknowledged. *)
Theorem C113_follows_partial : forall subject h0 p h1 t n m, subject_text subject -> Forall unconcerned h0 -> accepted p -> receives p ->
  Forall (same_ack (p_ack p)) h1 -> history subject (h0 ++ Call (Set_ p) :: h1) start = Ok (t, n) ->
  ~ came (i_uuid m) (h0 ++ Call (Set_ p) :: h1) ->
  forall u, In (Acked u) (fst (arrive m n)) <-> u = i_uuid m /\ i_wants_ack m = true /\ i_way_back m = true /\ p_ack p = 1.
Proof.
  intros subject h0 p h1 t n m T U A R _ H N u. destruct (set_first subject h0 p h1 t n T U A R H) as (_ & Nr & C).
  pose proof (formed_history _ _ _ _ _ T formed_start H) as F. destruct (rx (mx n)) as [[o b]|] eqn:E; [|contradiction].
  pose proof (f_rx _ F) as W. rewrite E in W. destruct W as [-> _].
  rewrite (arrive_eq m n o _ _ E C), (not_known _ _ _ _ _ H N), andb_false_r. rewrite !in_app_iff. split.
  - intros [X|[X|X]].
    + unfold acks in X. destruct (Z.eqb_spec (p_ack p) 1); cbn [andb] in X; [|contradiction].
      destruct (i_wants_ack m), (i_way_back m); cbn [andb] in X; try contradiction. destruct X as [X|[]]. injection X as <-. auto.
    + destruct (_ && _); [destruct X as [X|[]]; discriminate | contradiction].
    + destruct (_ && _); [|contradiction]. apply in_map_iff in X as (j & X & _). discriminate.
  - intros (-> & X1 & X2 & X3). left. unfold acks. rewrite X1, X2, X3. left. reflexivity.
Qed.
(** If a receive callback was added first, nothing is ever acknowledged, whatever is set later. *)
Theorem C113_late_refuted : forall subject h0 h1 t n, subject_text subject -> Forall no_settings h0 ->
  history subject (h0 ++ Call Listen :: h1) start = Ok (t, n) -> forall u, ~ In (Acked u) t.
Proof. intros subject h0 h1 t n T U H. apply (listen_first subject h0 h1 t n T U H). Qed.
(** Acknowledgements that were set first are sent for ever, whatever is set later. *)
Theorem C113_stays_refuted : forall subject h0 p h1 t n m, subject_text subject -> Forall unconcerned h0 -> accepted p -> receives p -> p_ack p = 1 ->
  history subject (h0 ++ Call (Set_ p) :: h1) start = Ok (t, n) -> ~ came (i_uuid m) (h0 ++ Call (Set_ p) :: h1) ->
  i_wants_ack m = true -> i_way_back m = true -> In (Acked (i_uuid m)) (fst (arrive m n)).
Proof.
  intros subject h0 p h1 t n m T U A R K H N W B. destruct (set_first subject h0 p h1 t n T U A R H) as (_ & Nr & C).
  pose proof (formed_history _ _ _ _ _ T formed_start H) as F. destruct (rx (mx n)) as [[o b]|] eqn:E; [|contradiction].
  pose proof (f_rx _ F) as X. rewrite E in X. destruct X as [-> _].
  rewrite (arrive_eq m n o _ _ E C), (not_known _ _ _ _ _ H N), andb_false_r. apply in_app_iff. left. unfold acks. rewrite K, W, B. left. reflexivity.
Qed.
(** A message that is sent again, because its acknowledgement was lost, is not acknowledged again: the sender waits in vain. *)
Theorem C113_again_refuted : forall subject h p m m' t n, subject_text subject -> accepted p -> receives p ->
  history subject (h ++ [Call (Set_ p); Arrive m]) start = Ok (t, n) -> i_uuid m' = i_uuid m -> fst (arrive m' n) = [].
Proof.
  intros subject h p m m' t n T A R H E. rewrite history_app in H. destruct (history subject h start) as [[x n0]| |] eqn:H0; cbn [obind] in H; try discriminate.
  pose proof (formed_history _ _ _ _ _ T formed_start H0) as F. cbn [history] in H.
  destruct (happen subject (Call (Set_ p)) n0) as [[y n1]| |] eqn:H1; cbn [obind] in H; try discriminate. destruct (happen_cases _ _ _ _ _ H1) as [_ D].
  destruct (set_unique subject p n0 n1 F A R D) as (o & O & Q). pose proof (formed_call _ _ _ _ T F D) as F1.
  pose proof (f_rx _ F1) as X. rewrite O in X. destruct X as (_ & a & w & X). cbn [happen obind] in H.
  destruct (arrive m n1) as [z n2] eqn:Ar. cbn [obind] in H. injection H as _ <-.
  assert (S2 : mx n2 = mx n1 /\ rx_chain n2 = rx_chain n1 /\ In (i_uuid m) (seen n2)).
  { unfold arrive in Ar. rewrite O, X, Q in Ar. cbn [andb] in Ar. destruct (existsb (Z.eqb (i_uuid m)) (seen n1)) eqn:Ex; cbn [negb] in Ar.
    - injection Ar as _ <-. cbn. repeat split; auto. apply existsb_exists in Ex as (u & X1 & X2). apply Z.eqb_eq in X2. subst. exact X1.
    - destruct (chain_of receive_one m (in_list a w)). injection Ar as _ <-. cbn. repeat split; auto. apply in_app_iff. right. left. reflexivity. }
  destruct S2 as (S3 & S4 & S5).
  rewrite (arrive_eq m' n2 o a w) by congruence. rewrite S3, Q. unfold known. rewrite E.
  replace (existsb (Z.eqb (i_uuid m)) (seen n2)) with true; [reflexivity|]. symmetry. apply existsb_exists. exists (i_uuid m). split; [exact S5 | apply Z.eqb_refl].
Qed.

Example C113_ex :
  (exists n, history topic [SendMsg (mkOut 9 false); Call (Set_ (set_of 1 1 0)); Call Listen; Arrive (mkIn 3 true true true); Arrive (mkIn 3 true true true)] start
     = Ok ([Acked 3; Opened 3; Given 3 0], n)) /\
  (exists n, history topic [Call (Set_ (set_of 1 0 0)); Call Listen; Arrive (mkIn 3 true true true)] start = Ok ([Opened 3; Given 3 0], n)) /\
  (exists n, history topic [Call Listen; Call (Set_ (set_of 1 1 0)); Arrive (mkIn 3 true true true)] start = Ok ([Opened 3; Given 3 0], n)) /\
  (exists n, history topic [Call (Set_ (set_of 1 1 0)); Call (Set_ (set_of 1 0 0)); Arrive (mkIn 3 true true true)] start = Ok ([Acked 3; Opened 3], n)) /\
  accepted (set_of 1 1 0) /\ receives (set_of 1 1 0).
Proof.
  split; [eexists; vm_compute; reflexivity|]. split; [eexists; vm_compute; reflexivity|]. split; [eexists; vm_compute; reflexivity|].
  split; [eexists; vm_compute; reflexivity|]. split; [intros [X _]; discriminate | discriminate].
Qed.

(** ** C114: handlers of the node and of applications *)
(** No channel of an application runs a handler of the node itself. *)
Theorem C114_application : forall subject h t n x, subject_text subject -> history subject h start = Ok (t, n) -> ~ In (Ran x) t.
Proof.
  intros subject h t n x T H.
  apply (history_inv subject (fun _ => True) formed foreign) in H; auto using formed_start, foreign_app; [apply H | | |apply Forall_forall; auto].
  - intros e [].
  - intros e k s k' _ F X. split; [eapply formed_happen; eauto | eapply happen_foreign; eauto].
Qed.
(** Each subject of the node runs its own handlers and no others, receiving and sending. *)
Theorem C114_node : forall e, In e node_subjects -> In (fst (fst (fst e)), node_chain e true, node_chain e false) own_handlers.
Proof.
  intros e H. assert (E : own_handlers = map (fun e => (fst (fst (fst e)), node_chain e true, node_chain e false)) node_subjects) by reflexivity.
  rewrite E. apply (in_map (fun e => (fst (fst (fst e)), node_chain e true, node_chain e false))). exact H.
Qed.
Example C114_ex : List.length own_handlers = List.length node_subjects /\ is_named (text "_NP.NODES") "_NP.NODES.PIGGY" = true /\
  is_named (text "_NP.NODES") "_NP.NODES.UPDATE" = true /\ load_internal_callback topic true = [].
Proof. repeat split. Qed.

(** ** C115: what was acknowledged was given *)
(** If the message can be opened, it is given to every callback when it is acknowledged. *)
Theorem C115_given_partial : forall subject h t n m, subject_text subject -> no_virtual h -> history subject h start = Ok (t, n) ->
  i_opens m = true -> In (Acked (i_uuid m)) (fst (arrive m n)) -> forall i, (i < listeners (mx n))%nat -> In (Given (i_uuid m) i) (fst (arrive m n)).
Proof.
  intros subject h t n m T V H O A i L.
  assert (On : open_channel n).
  { apply (history_inv subject not_virtual open_channel (fun _ => True)) in H; auto using open_start; [apply H | |].
    - intros e k s k' N F X. split; [eapply open_happen; eauto | exact I].
    - apply Forall_forall. intros e X. destruct e as [[]| |]; cbn; auto. }
  destruct On as [F R _]. destruct (arrive_cases m n F) as [X | (o & a & w & E & C)]; [rewrite X in A; contradiction|].
  destruct (R _ _ E) as [Au _]. rewrite (arrive_eq m n o a w E C) in *. destruct (_ && known m n); [contradiction|].
  apply in_app_iff. right. apply in_app_iff. right. rewrite O, orb_true_r. destruct (Z.eqb_spec (c_aud_type (obj (mx n) o)) 1); [contradiction|].
  cbn [andb negb]. apply in_map_iff. exists i. split; [reflexivity|]. apply in_seq. lia.
Qed.
(** A message that cannot be opened is acknowledged and not given to anybody. *)
Theorem C115_unread_refuted : forall subject h0 p h1 t n m, subject_text subject -> Forall unconcerned h0 -> accepted p -> receives p -> ~ virtual p ->
  p_ack p = 1 -> history subject (h0 ++ Call (Set_ p) :: h1) start = Ok (t, n) -> ~ came (i_uuid m) (h0 ++ Call (Set_ p) :: h1) ->
  i_wants_ack m = true -> i_way_back m = true -> i_opens m = false -> fst (arrive m n) = [Acked (i_uuid m)].
Proof.
  intros subject h0 p h1 t n m T U A R V K H N W B O. destruct (set_first subject h0 p h1 t n T U A R H) as (_ & Nr & C).
  pose proof (formed_history _ _ _ _ _ T formed_start H) as F. destruct (rx (mx n)) as [[o b]|] eqn:E; [|contradiction].
  pose proof (f_rx _ F) as X. rewrite E in X. destruct X as [-> _].
  rewrite (arrive_eq m n o _ _ E C), (not_known _ _ _ _ _ H N), andb_false_r. unfold acks. rewrite K, W, B, O.
  destruct (Z.eqb_spec (p_aud_type p) 1); [contradiction|]. reflexivity.
Qed.
(** ... and it uses up its uuid: the same message is not given when it comes again in good order (sent once more). *)
Example C115_ex :
  exists n, history topic [Call (Set_ (set_of 1 1 0)); Call Listen; Arrive (mkIn 3 true true false); Arrive (mkIn 3 true true true);
                           Arrive (mkIn 4 true true true)] start = Ok ([Acked 3; Acked 4; Opened 4; Given 4 0], n).
Proof. eexists. vm_compute. reflexivity. Qed.

Print Assumptions C112_sealed.
Print Assumptions C112_opened_partial.
Print Assumptions C112_unopened_refuted.
Print Assumptions C112_mute_refuted.
Print Assumptions C113_follows_partial.
Print Assumptions C113_late_refuted.
Print Assumptions C113_stays_refuted.
Print Assumptions C113_again_refuted.
Print Assumptions C114_application.
Print Assumptions C114_node.
Print Assumptions C115_given_partial.
Print Assumptions C115_unread_refuted.
