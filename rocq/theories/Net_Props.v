(** C74, C75: sockets. *)
From Coq Require Import List ZArith Lia Bool.
From Verif Require Import Base Net_Model Net_Spec Net_Proofs.
Import ListNotations.
Open Scope nat_scope.

(** * C74: packets over a TCP connection *)

(** However the operating system cuts the bytes of a packet within one event,
    and whatever it refuses altogether, the packets handed on are those given
    to the connection, whole, in order, each once; what is missing is still
    under way or still queued.  Missing from the full claim: events that are
    interrupted inside a packet (next theorems). *)
Theorem C74_in_order_partial : forall max es,
  Forall uncut es -> Forall (below max) es ->
  exists flight,
    queued es = t_got (tcp_run max tcp0 es) ++ flight ++ t_queue (tcp_run max tcp0 es) /\
    t_wire (tcp_run max tcp0 es) = concat flight /\ Forall packet flight.
Proof. exact tcp_in_order. Qed.

(** And they do arrive once the sockets can be written and read again. *)
Theorem C74_all_arrive_partial : forall max es n,
  (0 <= max)%Z -> Forall uncut es -> Forall (below max) es ->
  length (queued es) <= n ->
  t_got (tcp_run max tcp0 (es ++ repeat (Writable 0 [1046]) n ++ reads n)) = queued es.
Proof. exact tcp_all_arrive. Qed.

(** A read that finds only the first part of a packet throws this part away;
    from then on everything is taken from the wrong place in the stream: each
    packet handed on is the end of one packet with the beginning of the next,
    for as long as the connection lives. *)
Theorem C74_cut_read_refuted : forall max k p ps load,
  (0 <= max)%Z -> 0 < k < 1046 -> packet p -> Forall packet ps ->
  t_got (tcp_run max (sent_all (p :: ps)) (Readable load [k; 0] :: reads (length ps))) =
  shifted k (p :: ps).
Proof. exact tcp_cut_read. Qed.

(** So of any number of packets, as many wrong ones are handed on (less one),
    and not a single right one. *)
Theorem C74_none_right_refuted : forall max k n load,
  (0 <= max)%Z -> 0 < k < 1046 ->
  let s := tcp_run max (sent_all (plain (Datatypes.S n)))
             (Readable load [k; 0] :: reads n) in
  length (t_got s) = n /\
  forall x, In x (t_got s) -> ~ In x (plain (Datatypes.S n)).
Proof.
  intros max k n load M K s.
  assert (E : t_got s = shifted k (plain (Datatypes.S n))).
  { unfold s. pose proof (plain_packets (Datatypes.S n)) as P.
    pose proof (plain_length (Datatypes.S n)) as L.
    rewrite (plain_cons n) in P, L |- *. inversion_clear P. cbn [length] in L.
    injection L as L. rewrite <- L at 2.
    apply tcp_cut_read; assumption. }
  rewrite E. split.
  - rewrite (plain_cons n), shifted_length.
    pose proof (plain_length (Datatypes.S n)) as L. rewrite (plain_cons n) in L.
    cbn [length] in L. injection L as L. exact L.
  - intros x H. apply (plain_lost k); assumption.
Qed.

(** A write that is refused inside a packet has the same effect at the other
    end: the packet is sent again from its first byte, after the part that is
    already on its way. *)
Theorem C74_resent_refuted : forall max k p ps,
  (0 <= max)%Z -> 0 < k < 1046 -> packet p -> Forall packet ps ->
  t_wire (tcp_run max (mkTcp (p :: ps) [] [])
            (Writable 0 [k; 0] :: repeat (Writable 0 [1046]) (length (p :: ps)))) =
  firstn k p ++ concat (p :: ps).
Proof. exact tcp_resent. Qed.

(** The states of the last theorems are reached from a new connection. *)
Theorem C74_reachable : forall max ps,
  (0 <= max)%Z -> Forall packet ps ->
  tcp_run max tcp0 (map Queue ps ++ repeat (Writable 0 [1046]) (length ps)) = sent_all ps /\
  tcp_run max tcp0 (map Queue ps) = mkTcp ps [] [].
Proof.
  intros max ps M P.
  assert (Q : forall q w g, tcp_run max (mkTcp q w g) (map Queue ps) = mkTcp (q ++ ps) w g).
  { clear M P. induction ps as [|p ps IH]; intros q w g.
    - rewrite app_nil_r. reflexivity.
    - cbn [map]. change (tcp_run max ?s (?e :: ?es)) with (tcp_run max (tcp_step max s e) es).
      cbn [tcp_step t_queue t_wire t_got]. rewrite IH, <- app_assoc. reflexivity. }
  unfold tcp0. rewrite tcp_run_app, Q. cbn [app]. split; [|reflexivity].
  rewrite write_all; [reflexivity|exact M|exact P|lia].
Qed.

(** Three packets, cut and refused in several ways, arrive. *)
Definition C74_events : list tcp_event :=
  [Queue (repeat 1%Z 1046); Queue (repeat 2%Z 1046);
   Writable 0 [0]; Writable 0 [500; 500; 46]; Readable 0 [1; 1000; 45];
   Queue (repeat 3%Z 1046); Writable 0 [1046]; Readable 0 [];
   Readable 0 [2000]; Writable 0 [1000; 1000]].

Example C74_case :
  Forall uncut C74_events /\ Forall (below 0) C74_events /\
  t_got (tcp_run 0 tcp0 C74_events) = [repeat 1%Z 1046; repeat 2%Z 1046].
Proof.
  split; [|split].
  - unfold C74_events.
    repeat (apply Forall_cons;
            [first [apply repeat_packet | left; reflexivity | right; reflexivity]|]).
    apply Forall_nil.
  - unfold C74_events. repeat constructor; cbn; lia.
  - vm_compute. reflexivity.
Qed.

(** The lost part of a packet, and the packet that was sent in parts. *)
Example C74_cut_case :
  0 < 10 < 1046 /\ packet (repeat 1%Z 1046) /\ Forall packet [repeat 2%Z 1046] /\
  t_got (tcp_run 0 (sent_all [repeat 1%Z 1046; repeat 2%Z 1046])
           [Readable 0 [10; 0]; Readable 0 [1046]]) =
  [repeat 1%Z 1036 ++ repeat 2%Z 10].
Proof.
  split; [lia|]. split; [apply repeat_packet|]. split; [constructor; [apply repeat_packet|constructor]|].
  vm_compute. reflexivity.
Qed.

(** * C75: a listening UDP socket *)

(** Datagrams of a packet's size or more are handed on one by one, each with
    its own sender's address, in the order they came, and the node goes on
    listening.  Missing from the full claim: shorter datagrams. *)
Theorem C75_full_partial : forall max es,
  Forall (ordinary max) es ->
  listening (udp_run max udp0 es) /\
  exists rest,
    arrived es = received (udp_run max udp0 es) ++ rest /\
    length rest = length (u_waiting (udp_run max udp0 es)).
Proof.
  intros max es O. destruct (urun_fits max es [] udp0 udp0_fits O) as [C [R [F G]]].
  split; [exact R|]. exists (map cut (u_waiting (udp_run max udp0 es))).
  split; [exact G|apply map_length].
Qed.

(** An empty datagram - from anybody, at any time - ends listening: it is taken
    for the end of a connection.  Whatever happens afterwards, nothing is
    received any more (enabling the socket again is done only when it is
    created). *)
Theorem C75_empty_refuted : forall max s a rest load status es,
  listening s -> s_srv (u_sock s) = true -> u_waiting s = (a, []) :: rest ->
  Forall not_enabled es ->
  let s' := udp_run max s (ReadIt load status :: es) in
  ~ listening s' /\ u_jobs s' = u_jobs s.
Proof.
  intros max s a rest load status es L S W N s'.
  assert (D : udp_step max s (ReadIt load status) = mkUdp (disable (u_sock s)) rest (u_jobs s)).
  { cbn [udp_step]. rewrite L, W. reflexivity. }
  unfold s'. change (udp_run max s (ReadIt load status :: es))
    with (udp_run max (udp_step max s (ReadIt load status)) es).
  rewrite D. destruct (dead_run max es _ (disable_dead (u_sock s) rest (u_jobs s) S) N) as [[_ R] J].
  split; [|exact J]. unfold listening. rewrite R. discriminate.
Qed.

(** In particular two events caused by a stranger suffice. *)
Theorem C75_stranger_refuted : forall max stranger es,
  Forall not_enabled es ->
  Forall foreign [Arrive stranger []; ReadIt 0 (fun _ => 0%Z)] /\
  received (udp_run max udp0 ([Arrive stranger []; ReadIt 0 (fun _ => 0%Z)] ++ es)) = [] /\
  ~ listening (udp_run max udp0 ([Arrive stranger []; ReadIt 0 (fun _ => 0%Z)] ++ es)).
Proof.
  intros max stranger es N. split; [repeat constructor|].
  cbn [app]. change (udp_run max udp0 (Arrive stranger [] :: ?r))
    with (udp_run max (udp_step max udp0 (Arrive stranger [])) r).
  destruct (C75_empty_refuted max (udp_step max udp0 (Arrive stranger [])) stranger []
              0 (fun _ => 0%Z) es) as [A B]; try reflexivity; [exact N|].
  split; [|exact A]. unfold received. rewrite B. reflexivity.
Qed.

(** A short datagram swallows the one behind it: what is handed on begins with
    the stranger's bytes, misses the end of the peer's packet, and counts as
    the peer's. *)
Theorem C75_short_refuted : forall max s stranger b peer p rest load status,
  listening s -> (load <= max)%Z ->
  0 < length b < 1046 -> packet p ->
  u_waiting s = (stranger, b) :: (peer, p) :: rest ->
  received (udp_run max s [ReadIt load status]) =
    received s ++ [(peer, b ++ firstn (1046 - length b) p)] /\
  u_waiting (udp_run max s [ReadIt load status]) = rest.
Proof.
  intros max s stranger b peer p rest load status L M B P W.
  cbn [udp_run fold_left udp_step]. rewrite L, W.
  rewrite recvfrom_short; [|exact B|rewrite (packet_len p P); lia].
  rewrite judge_full; [| |exact M].
  2: { rewrite app_length, firstn_length, (packet_len p P).
       change 1046 with PACKET in B. lia. }
  split; [|reflexivity]. unfold received. cbn [u_jobs]. rewrite map_app. reflexivity.
Qed.

(** A short datagram alone is ignored. *)
Theorem C75_short_alone : forall max s stranger b load status,
  listening s -> 0 < length b < 1046 ->
  u_waiting s = [(stranger, b)] ->
  let s' := udp_run max s [ReadIt load status] in
  listening s' /\ received s' = received s /\ u_waiting s' = [].
Proof.
  intros max s stranger b load status L B W s'. unfold s'.
  cbn [udp_run fold_left udp_step]. rewrite L, W. cbn [recvfrom_loop length].
  change 1046 with PACKET in B. rewrite Nat.sub_0_r, (firstn_all2 b) by lia. cbn [app].
  replace (length b =? 0) with false by (symmetry; apply Nat.eqb_neq; lia).
  replace (length b <? PACKET) with true by (symmetry; apply Nat.ltb_lt; lia).
  cbn [judge]. repeat split. exact L.
Qed.

(** Who gets the packet: the alias of its sender once a handshake has begun,
    the node's own key before. *)
Theorem C75_routed : forall max s peer p rest load status,
  listening s -> (load <= max)%Z -> full p ->
  u_waiting s = (peer, p) :: rest ->
  u_jobs (udp_run max s [ReadIt load status]) =
    u_jobs s ++ [(if (1 <=? status peer)%Z then ToAlias else ToOwner, peer, firstn 1046 p)].
Proof.
  intros max s peer p rest load status L M F W.
  cbn [udp_run fold_left udp_step]. rewrite L, W, (recvfrom_full peer p rest F).
  rewrite judge_full; [| |exact M].
  2: { unfold full in F. change 1046 with PACKET in *. rewrite firstn_length. lia. }
  cbn [u_jobs]. unfold route_to. cbn [orb]. rewrite Z.ltb_antisym.
  destruct (1 <=? status peer)%Z; reflexivity.
Qed.

(** Over the limit nothing is handed on. *)
Theorem C75_limited : forall max s load status,
  (max < load)%Z -> u_jobs (udp_run max s [ReadIt load status]) = u_jobs s.
Proof.
  intros max s load status M. cbn [udp_run fold_left udp_step].
  destruct (s_rd (u_sock s)); [|reflexivity].
  destruct (u_waiting s) as [|x w]; [reflexivity|].
  destruct (recvfrom_loop [] 0%Z (x :: w)) as [[c from] w'].
  unfold judge. destruct c as [|buf]; [reflexivity|].
  replace (max <? load)%Z with true by (symmetry; apply Z.ltb_lt; lia).
  destruct (length buf =? PACKET); [reflexivity|].
  destruct (length buf =? 0); reflexivity.
Qed.

(** A disabled socket is silent until it is enabled, and enabling it makes it
    listen. *)
Theorem C75_switch : forall max s es,
  s_srv (u_sock s) = true -> Forall not_enabled es ->
  ~ listening (udp_run max s (DisableIt :: es)) /\
  u_jobs (udp_run max s (DisableIt :: es)) = u_jobs s /\
  listening (udp_step max s EnableIt).
Proof.
  intros max s es S N.
  change (udp_run max s (DisableIt :: es))
    with (udp_run max (mkUdp (disable (u_sock s)) (u_waiting s) (u_jobs s)) es).
  destruct (dead_run max es _ (disable_dead (u_sock s) (u_waiting s) (u_jobs s) S) N)
    as [[_ R] J].
  split; [unfold listening; rewrite R; discriminate|]. split; [exact J|].
  unfold listening. cbn. rewrite S. apply orb_true_r.
Qed.

(** Reading switches the socket off only if the first datagram that waits is
    empty: no other datagram, and no sequence of them, does. *)
Theorem C75_only_empty : forall max s load status,
  u_sock (udp_step max s (ReadIt load status)) <> u_sock s ->
  exists from rest, u_waiting s = (from, []) :: rest.
Proof.
  intros max s load status. cbn [udp_step]. destruct (s_rd (u_sock s)); [|contradiction].
  destruct (u_waiting s) as [|[a d] w] eqn:W; [contradiction|]. destruct d as [|x d]; [eauto|].
  assert (G : forall w buf from, 0 < length buf ->
    match fst (fst (recvfrom_loop buf from w)) with Got b => 0 < length b | Failed => True end).
  { clear. induction w as [|[a d] w IH]; intros buf from L; cbn [recvfrom_loop]; [exact I|].
    destruct (length (firstn (PACKET - length buf) d) =? 0); cbn [fst]; [exact L|].
    destruct (length (buf ++ firstn (PACKET - length buf) d) <? PACKET); cbn [fst];
      [apply IH|]; rewrite app_length; lia. }
  assert (H : match fst (fst (recvfrom_loop [] 0%Z ((a, x :: d) :: w))) with Got b => 0 < length b | Failed => True end).
  { cbn [recvfrom_loop length app]. rewrite Nat.sub_0_r.
    assert (L : 0 < length (firstn PACKET (x :: d))).
    { rewrite firstn_length. cbn [length]. pose proof PACKET_pos. lia. }
    destruct (Nat.eqb_spec (length (firstn PACKET (x :: d))) 0); [lia|].
    destruct (length (firstn PACKET (x :: d)) <? PACKET); [apply G; exact L|cbn [fst]; exact L]. }
  destruct (recvfrom_loop [] 0%Z ((a, x :: d) :: w)) as [[c from] w']. cbn [fst] in H.
  unfold judge. destruct c as [|b]; cbn [u_sock]; [contradiction|]. destruct (length b =? PACKET).
  - destruct (max <? load)%Z; cbn [u_sock]; contradiction.
  - destruct (Nat.eqb_spec (length b) 0); [lia|]. cbn [u_sock]. contradiction.
Qed.

Example C75_case :
  let a := repeat 1%Z 1046 in let b := repeat 2%Z 1050 in
  received (udp_run 0 udp0
    [Arrive 7 a; Arrive 9 b; ReadIt 0 (fun _ => 0%Z); Start; ReadIt 0 (fun _ => 1%Z)]) =
  [(7%Z, repeat 1%Z 1046); (9%Z, repeat 2%Z 1046)].
Proof. vm_compute. reflexivity. Qed.

Print Assumptions C74_in_order_partial.
Print Assumptions C74_all_arrive_partial.
Print Assumptions C74_cut_read_refuted.
Print Assumptions C74_none_right_refuted.
Print Assumptions C74_resent_refuted.
Print Assumptions C74_reachable.
Print Assumptions C75_full_partial.
Print Assumptions C75_empty_refuted.
Print Assumptions C75_stranger_refuted.
Print Assumptions C75_short_refuted.
Print Assumptions C75_short_alone.
Print Assumptions C75_routed.
Print Assumptions C75_limited.
Print Assumptions C75_switch.
Print Assumptions C75_only_empty.
