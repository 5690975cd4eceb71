(** C93: callbacks of one channel do not run at the same time.
    C94: threads that deliver messages do not block each other for good.
    C95: threads that read from the network do not block each other for good. *)
From Coq Require Import List Arith Bool Lia.
From Verif Require Import Lock_Model Lock_Spec Lock_Proofs.
Import ListNotations.

(** ** C93 *)

(** Whatever the channels, whatever the threads have to deliver and whatever callbacks call, in
    every schedule: two threads that are in callbacks of the same channel are one. *)
Theorem C93_one_at_a_time : forall c js sched i j s,
  inside i s (run sched (threads c js)) > 0 ->
  inside j s (run sched (threads c js)) > 0 -> i = j.
Proof.
  intros c js sched i j s. apply inv_exclusive with (R := fun _ _ => True).
  apply inv_run, inv_any.
Qed.

(** And when nobody has anything left to do, every callback has returned and every lock is free. *)
Theorem C93_all_given_back : forall c js sched,
  finished (run sched (threads c js)) ->
  (forall l, locks (run sched (threads c js)) l = None) /\
  forall t s, inside t s (run sched (threads c js)) = 0.
Proof.
  intros c js sched. apply inv_finished with (R := fun _ _ => True). apply inv_run, inv_any.
Qed.

(** Two threads deliver messages of channel 0, whose callback sends on channel 1; the second one
    waits until the first has left the callback. *)
Definition ex_confs : confs := with_roles (fun s => match s with 0 => Some Consumer | _ => Some Provider end).
Definition ex_jobs : list (list job) := [[Deliver 0 [[Send 1]]]; [Deliver 0 [[Send 1]]]].

Example C93_ex :
  let st := run [0; 0; 1; 1; 1] (threads ex_confs ex_jobs) in
  inside 0 0 st = 1 /\ inside 1 0 st = 0 /\
  inside 1 0 (run [0; 0; 0; 0; 1; 0; 0; 1; 1] (threads ex_confs ex_jobs)) = 1 /\
  finished (run [0; 0; 0; 0; 1; 0; 0; 1; 1; 1; 1; 1; 1] (threads ex_confs ex_jobs)).
Proof.
  repeat split; try reflexivity. intros t. destruct t as [|[|[|t]]]; reflexivity.
Qed.

(** Callbacks of different channels do run at the same time. *)
Example C93_others_ex :
  let st := run [0; 0; 1; 1] (threads ex_confs [[Deliver 0 [[]]]; [Deliver 1 [[]]]]) in
  inside 0 0 st = 1 /\ inside 1 1 st = 1.
Proof. split; reflexivity. Qed.

(** ** C94 *)

(** If the callbacks of a channel only touch (np_add_receive_cb; np_send when the channel was set up
    for sending and receiving) the channel itself and channels of a lower level, then in every
    schedule somebody can go on until everybody is done. *)
Theorem C94_levels_partial : forall c level js,
  (forall p j, In p js -> In j p -> stratified c level j) ->
  forall sched, ~ stuck (run sched (threads c js)) /\
    exists more, finished (run (sched ++ more) (threads c js)).
Proof.
  intros c level js H sched.
  assert (Q : inv (lower (levels level)) (run sched (threads c js))) by (apply inv_run, inv_stratified, H).
  split; [eapply not_stuck, Q|].
  destruct (finishes _ _ Q) as [more F]. exists more. rewrite run_app. exact F.
Qed.

(** In particular when callbacks do not add callbacks, and no channel is both sent and received on
    with one setting (role prosumer). *)
Theorem C94_senders_partial : forall roles js,
  (forall s, roles s <> Some Prosumer) ->
  (forall p s cbs cb x, In p js -> In (Deliver s cbs) p -> In cb cbs -> In x cb -> sends_only x) ->
  forall sched, ~ stuck (run sched (threads (with_roles roles) js)) /\
    exists more, finished (run (sched ++ more) (threads (with_roles roles) js)).
Proof.
  intros roles js HR HS. apply C94_levels_partial with (level := fun _ => 0).
  intros p j Hp Hj. destruct j as [s cbs|s|xs]; cbn; auto.
  intros cb x s' Hcb Hx Ht. exfalso. specialize (HS p s cbs cb x Hp Hj Hcb Hx).
  destruct x as [y|y|y]; cbn in *; try contradiction.
  destruct Ht as (-> & m & Hm & Hi). specialize (HR s').
  destruct (roles s') as [[| |]|]; try congruence; injection Hm as <-; discriminate.
Qed.

Definition two_prosumers : confs := with_roles (fun s => if s <=? 1 then Some Prosumer else None).
Definition cross : list (list job) := [[Deliver 0 [[Send 1]]]; [Deliver 1 [[Send 0]]]].

(** Two channels of role prosumer; the callback of each one sends on the other. After two messages,
    one on each channel, two threads wait for each other and nothing they could do, in any order,
    changes it. *)
Theorem C94_prosumers_refuted : exists sched, stuck (run sched (threads two_prosumers cross)) /\
  forall more, run (sched ++ more) (threads two_prosumers cross) = run sched (threads two_prosumers cross).
Proof.
  exists [0; 0; 1; 1].
  assert (S : stuck (run [0; 0; 1; 1] (threads two_prosumers cross))).
  { split.
    - intros F. specialize (F 0). cbn in F. discriminate.
    - intros [|[|t]]; [reflexivity|reflexivity|]. cbn. unfold step. cbn.
      destruct t; reflexivity. }
  split; [exact S|]. intros more. rewrite run_app. apply stuck_stays, S.
Qed.

(** The same with np_add_receive_cb: the callbacks of two channels each add a callback to the other
    channel. *)
Theorem C94_add_receive_refuted : exists sched,
  stuck (run sched (threads (with_roles (fun _ => Some Consumer))
                      [[Deliver 0 [[AddReceiveCb 1]]]; [Deliver 1 [[AddReceiveCb 0]]]])).
Proof.
  exists [0; 0; 1; 1]. split.
  - intros F. specialize (F 0). cbn in F. discriminate.
  - intros [|[|t]]; [reflexivity|reflexivity|]. cbn. unfold step. cbn. destruct t; reflexivity.
Qed.

(** The hypotheses of C94 are met by an application that answers: the callback of channel 0 sends on
    channel 1 and the callback of channel 1 on channel 2, where channels 1 and 2 are prosumers. *)
Example C94_ex :
  forall sched, ~ stuck (run sched (threads
    (with_roles (fun s => match s with 0 => Some Consumer | _ => Some Prosumer end))
    [[Deliver 0 [[Send 1]]; SendOut 1]; [Deliver 1 [[Send 2; Send 1]]]; [Deliver 2 [[HasReceiverFor 1]]; Api [Send 1]]])).
Proof.
  intros sched. apply C94_levels_partial with (level := fun s => 2 - s).
  intros p j Hp Hj. cbn in Hp. destruct Hp as [<-|[<-|[<-|[]]]]; cbn in Hj;
    repeat (destruct Hj as [<-|Hj]; [cbn; auto|]); try contradiction.
  all: intros cb x s' [<-|[]] Hx Ht; cbn in Hx, Ht.
  all: repeat match goal with
       | H : _ \/ _ |- _ => destruct H as [<-|H]
       | H : False |- _ => destruct H
       | H : touches _ _ _ |- _ => cbn in H
       | H : _ /\ _ |- _ => destruct H as [<- _]
       end; lia.
Qed.

(** A callback may touch its own channel: the lock is recursive. *)
Example C94_own_ex :
  finished (run [0; 0; 0; 0; 0; 0; 0; 0; 0] (threads two_prosumers [[Deliver 0 [[Send 0]]]])).
Proof. intros [|[|t]]; reflexivity. Qed.

(** ** C95 *)

(** As long as no alias key has a network of its own (peers over UDP), whatever comes in and
    whatever the threads do with it: somebody can go on until everybody is done. *)
Theorem C95_udp_partial : forall js,
  (forall p j, In p js -> In j p -> no_own_network j) ->
  forall sched, ~ stuck (run sched (netthreads js)) /\
    exists more, finished (run (sched ++ more) (netthreads js)).
Proof.
  intros js H sched.
  assert (Q : inv (lower netrank) (run sched (netthreads js))) by (apply inv_run, inv_net, H).
  split; [eapply not_stuck, Q|].
  destruct (finishes _ _ Q) as [more F]. exists more. rewrite run_app. exact F.
Qed.

(** A peer over TCP that sends something right after its handshake: one thread handles the handshake
    under the lock of the alias key and wants the lock of the loop to restart the network, the
    loop reads the next packet and wants the lock of the alias key. The node never reads again. *)
Theorem C95_tcp_packet_refuted : exists sched,
  let st := run sched (netthreads [[Reading [Packet 7]]; [AliasSet 7 (Some 3)]]) in
  stuck st /\ forall more, run more st = st.
Proof.
  exists [0; 1; 1]. cbv zeta.
  assert (S : stuck (run [0; 1; 1] (netthreads [[Reading [Packet 7]]; [AliasSet 7 (Some 3)]]))).
  { split.
    - intros F. specialize (F 0). cbn in F. discriminate.
    - intros [|[|t]]; [reflexivity|reflexivity|]. cbn. unfold step. cbn. destruct t; reflexivity. }
  split; [exact S|]. apply stuck_stays, S.
Qed.

(** The same when the peer hangs up right after its handshake. *)
Theorem C95_tcp_hangup_refuted : exists sched,
  let st := run sched (netthreads [[Reading [Hangup 3]]; [AliasSet 7 (Some 3)]]) in
  stuck st /\ forall more, run more st = st.
Proof.
  exists [0; 1; 1]. cbv zeta.
  assert (S : stuck (run [0; 1; 1] (netthreads [[Reading [Hangup 3]]; [AliasSet 7 (Some 3)]]))).
  { split.
    - intros F. specialize (F 0). cbn in F. discriminate.
    - intros [|[|t]]; [reflexivity|reflexivity|]. cbn. unfold step. cbn. destruct t; reflexivity. }
  split; [exact S|]. apply stuck_stays, S.
Qed.

(** With a single thread nothing can block: the same work, one after the other. *)
Theorem C95_one_thread : forall jobs sched,
  ~ stuck (run sched (netthreads [jobs])) /\
  exists more, finished (run (sched ++ more) (netthreads [jobs])).
Proof. exact one_thread. Qed.

(** A loop that reads packets of two peers and of an unknown one while their handshakes are handled. *)
Example C95_ex : forall sched,
  ~ stuck (run sched (netthreads [[Reading [Packet 1; Unknown; Packet 2]; Reading [Hangup 9]];
                                  [AliasSet 1 None; AliasEvent 2]; [AliasSet 2 None; AliasEnd 1 None]])).
Proof.
  intros sched. apply C95_udp_partial. intros p j Hp Hj. cbn in Hp.
  destruct Hp as [<-|[<-|[<-|[]]]]; cbn in Hj;
    repeat (destruct Hj as [<-|Hj]; [exact I|]); contradiction.
Qed.

Print Assumptions C93_one_at_a_time.
Print Assumptions C93_all_given_back.
Print Assumptions C94_levels_partial.
Print Assumptions C94_senders_partial.
Print Assumptions C94_prosumers_refuted.
Print Assumptions C94_add_receive_refuted.
Print Assumptions C95_udp_partial.
Print Assumptions C95_tcp_packet_refuted.
Print Assumptions C95_tcp_hangup_refuted.
Print Assumptions C95_one_thread.
