From Verif Require Import Base Dhkey_Model Rbtree_Model Tree_Model Tree_Spec Tree_Proofs Ack_Model Ack_Spec Ack_Proofs.
From Coq Require Import List Lia FinFun.

(** * C72: an acknowledgement settles the message it names, and no other

    False.  The handlers are stored under message ids, but an acknowledgement looks for a text: the two kinds compare as equal, so
    the handler at the root of the tree is marked, whatever the acknowledgement names. *)

(** What holds: while a node waits for one message only, the acknowledgement of this message is reported at the next check (and the
    message is never sent again, C73_silent). *)
Theorem C72_single_partial : forall t h s u,
  0 < t -> fair h -> run h (init t) = Ok s -> open h s = [u] -> now s <= deadline h u ->
  exists s', run [Ack (Bin u); AckCheck] s = Ok s' /\ results s' = results s ++ [(u, Answered)].
Proof. intros t h s u T F E O D. destruct (good_run h t s T F E) as (m & G). exact (single_ack h s m u G O D). Qed.

(** In every state with some messages on their way, none of them late or acknowledged, there is one message that is reported as
    answered at the next check whatever message the next acknowledgement names; the others stay unanswered. *)
Theorem C72_any_refuted : forall t h s,
  0 < t -> fair h -> run h (init t) = Ok s -> no_ack h ->
  open h s <> [] -> (length (open h s) <= 31)%nat -> (forall u, In u (open h s) -> now s <= deadline h u) ->
  exists v, In v (open h s) /\ forall b, exists s', run [Ack (Bin b); AckCheck] s = Ok s' /\ results s' = results s ++ [(v, Answered)].
Proof. intros t h s T F E N O L D. destruct (good_run h t s T F E) as (m & G). exact (any_ack h s m G N O L D). Qed.

(** With two messages on their way, one of the two acknowledgements settles the other message. *)
Theorem C72_ack_refuted : forall t h s u w,
  0 < t -> fair h -> run h (init t) = Ok s -> no_ack h ->
  In u (open h s) -> In w (open h s) -> u <> w ->
  (length (open h s) <= 31)%nat -> (forall u, In u (open h s) -> now s <= deadline h u) ->
  exists a v s', (a = u \/ a = w) /\ v <> a /\ run [Ack (Bin a); AckCheck] s = Ok s' /\
    In (v, Answered) (results s') /\ ~ reported s v /\ ~ reported s' a.
Proof.
  intros t h s u w T F E N Hu Hw Ne L D. destruct (good_run h t s T F E) as (m & G).
  destruct (any_ack h s m G N) as (v & Hv & A); auto.
  { intros Q. rewrite Q in Hu. destruct Hu. }
  assert (exists a, (a = u \/ a = w) /\ v <> a) as (a & Ha & Nv).
  { destruct (list_eq_dec Z.eq_dec v u) as [->|Q]; [exists w|exists u]; auto. }
  destruct (A a) as (s' & Es & Er). exists a, v, s'. split; [exact Ha|]. split; [exact Nv|]. split; [exact Es|]. split; [|split].
  - rewrite Er. apply in_or_app. right. left. reflexivity.
  - apply open_in in Hv. tauto.
  - unfold reported. rewrite Er, map_app. intros H. apply in_app_or in H as [H|[H|[]]]; [|cbn in H; congruence].
    assert (Q : In a (open h s)) by (destruct Ha as [-> | ->]; auto). apply open_in in Q. tauto.
Qed.

(** An acknowledgement with a zero in the place of the message id stops the node. *)
Theorem C72_null_refuted : forall s, run [Ack Null] s = Abort.
Proof. reflexivity. Qed.

(** The cases are not empty: two messages of 10 s, sent at 100 *)
Definition id (i : nat) : uuid := repeat 0 15 ++ [Z.of_nat i].
Definition two : list op := [Send (id 1) 100 10 5; Send (id 2) 100 10 5].

Example two_fair : fair two.
Proof.
  split; [|split].
  - cbn. repeat constructor; cbn; intuition discriminate.
  - cbn. repeat constructor; lia.
  - cbn. intuition discriminate.
Qed.
(** The acknowledgement of the second message settles the first: the second is sent again, the first, which may be lost, is not *)
Example C72_two : exists s, run (two ++ [Ack (Bin (id 2)); AckCheck; Tick 6; ChannelCheck]) (init 100) = Ok s /\
  results s = [(id 1, Answered)] /\ stamps s (id 1) = [100] /\ stamps s (id 2) = [100; 105] /\ open two s = [id 2].
Proof. eexists. split; [vm_compute; reflexivity|]. repeat split; vm_compute; reflexivity. Qed.
(** An acknowledgement that names neither *)
Example C72_stranger : exists s, run (two ++ [Ack (Bin (id 9)); AckCheck]) (init 100) = Ok s /\ results s = [(id 1, Answered)].
Proof. eexists. split; [vm_compute; reflexivity|]. vm_compute. reflexivity. Qed.
Example C72_one : exists s, run [Send (id 1) 100 10 5; Tick 3; Ack (Bin (id 1)); Tick 1; AckCheck; Tick 20; ChannelCheck] (init 100) = Ok s /\
  results s = [(id 1, Answered)] /\ stamps s (id 1) = [100].
Proof. eexists. split; [vm_compute; reflexivity|]. repeat split; vm_compute; reflexivity. Qed.

(** * C73: a message that waits for its acknowledgement is sent again at fixed intervals until it is answered or late, and every wait ends *)

(** The time stamps of a message are those of its creation and of the following intervals, none skipped, none in the future *)
Theorem C73_stamps : forall h t0 s u t ttl iv,
  0 < t0 -> fair h -> run h (init t0) = Ok s -> In (Send u t ttl iv) h ->
  exists k, stamps s u = progression t iv (S k) /\ forall x, In x (stamps s u) -> x = t \/ x < now s.
Proof.
  intros h t0 s u t ttl iv T F E H. destruct (good_run h t0 s T F E) as (m & G). destruct (g_stamp _ _ _ G _ _ _ _ H) as (k & Ek).
  exists k. split; [exact Ek|]. intros x Hx. exact (g_past _ _ _ G _ _ _ _ _ H Hx).
Qed.

(** Each check of the channels sends an unreported message once more if its next interval has begun *)
Theorem C73_resent : forall h t0 s u t ttl iv,
  0 < t0 -> fair h -> run h (init t0) = Ok s -> In (Send u t ttl iv) h -> ~ reported s u ->
  exists s', run [ChannelCheck] s = Ok s' /\
    stamps s' u = stamps s u ++
      if t + Z.of_nat (length (stamps s u)) * iv <? now s then [t + Z.of_nat (length (stamps s u)) * iv] else [].
Proof.
  intros h t0 s u t ttl iv T F E H N. destruct (good_run h t0 s T F E) as (m & G).
  destruct (good_channel h s m G) as (s' & m' & E1 & _). exists s'. split; [cbn [run]; rewrite E1; reflexivity|].
  pose proof (g_msg _ _ _ G _ _ _ _ H N) as Hc. apply in_map_iff in Hc as (c & <- & Hc).
  rewrite (channel_stamps h s m s' c G E1 Hc). destruct (g_copy _ _ _ G c Hc) as (A1 & _ & A3).
  destruct (send_inj h (c_uuid c) _ _ _ _ _ _ (g_nodup _ _ _ G) A1 H) as (Q1 & _ & Q2). rewrite A3, Q1, Q2. reflexivity.
Qed.

(** A message that was reported is not sent again, whatever happens *)
Theorem C73_silent : forall h h2 t0 s s' u,
  0 < t0 -> fair (h ++ h2) -> run h (init t0) = Ok s -> reported s u -> run h2 s = Ok s' ->
  reported s' u /\ stamps s' u = stamps s u.
Proof.
  intros h h2 t0 s s' u T F E R E2. destruct (good_run h t0 s T (fair_app _ _ F) E) as (m & G). exact (silent h2 h s m s' u G F E2 R).
Qed.

(** A message or ping is reported once; as late only after its time to live; as answered only if acknowledgements came at all *)
Theorem C73_reports : forall h t0 s,
  0 < t0 -> fair h -> run h (init t0) = Ok s ->
  NoDup (map fst (results s)) /\ (forall u, reported s u -> In u (started h)) /\
  (forall u, In (u, TimedOut) (results s) -> deadline h u < now s) /\
  (forall u, In (u, Answered) (results s) -> ~ no_ack h).
Proof.
  intros h t0 s T F E. destruct (good_run h t0 s T F E) as (m & G). split; [exact (g_once _ _ _ G)|]. split; [exact (g_rep _ _ _ G)|].
  split; [exact (g_late _ _ _ G)|]. intros u H N. destruct (proj2 (g_ack _ _ _ G) u H) as (f & Hf). exact (N f Hf).
Qed.

(** When all messages are late and no new one is sent, every message is reported after one check for each 31 of them *)
Theorem C73_ends_partial : forall h h2 t0 s,
  0 < t0 -> fair (h ++ h2) -> run h (init t0) = Ok s ->
  (forall u, In u (open h s) -> deadline h u < now s) ->
  no_start h2 -> ~ In (Ack Null) h2 -> (length (open h s) <= 31 * rounds h2)%nat ->
  exists s', run h2 s = Ok s' /\ forall u, In u (started h) -> reported s' u.
Proof.
  intros h h2 t0 s T F E D Ns Nn L. destruct (good_run h t0 s T (fair_app _ _ F) E) as (m & G).
  destruct (ends h2 h s m G F Ns Nn D L) as (s' & E' & O'). exists s'. split; [exact E'|]. intros u Hu.
  destruct (in_dec (list_eq_dec Z.eq_dec) u (map fst (results s'))) as [J|J]; [exact J|]. exfalso.
  assert (Q : In u (open (h ++ h2) s')) by (apply open_in; split; [rewrite started_app; apply in_or_app; auto|exact J]).
  rewrite O' in Q. destruct Q.
Qed.

(** Missing: new messages.  With 31 messages of long life and small message ids, a message that is late is not looked at: a message
    that is to be sent once (its interval is its time to live) is sent any number of times, and never reported, however often the
    checks run. *)
Definition long (big : Z) : list op := map (fun i => Send (id i) 1 big big) (seq 1 31) ++ [Send (id 32) 1 1 1].
Definition round : list op := [Tick 2; AckCheck; ChannelCheck].
Definition starving (n : nat) : list op := long (2 * Z.of_nat n) ++ concat (repeat round n).

Lemma id_inj : Injective id.
Proof. intros x y H. unfold id in H. apply app_inv_head in H. injection H as H. lia. Qed.
Lemma long_started big : started (long big) = map id (seq 1 32).
Proof. reflexivity. Qed.
Lemma rounds_started n : started (concat (repeat round n)) = [].
Proof. induction n; [reflexivity|]. cbn [repeat concat]. rewrite started_app, IHn. reflexivity. Qed.
Lemma rounds_tick n d : In (Tick d) (concat (repeat round n)) -> 0 <= d.
Proof. induction n; [intros []|]. cbn [repeat concat]. intros H. apply in_app_or in H as [H|H]; [|auto]. cbn in H. intuition (try discriminate). injection H0. lia. Qed.
Lemma starving_fair big n : fair (long big ++ concat (repeat round n)).
Proof.
  unfold fair. rewrite started_app, rounds_started, app_nil_r, long_started. split; [|split].
  - apply Injective_map_NoDup; [exact id_inj|apply seq_NoDup].
  - apply Forall_forall. intros u H. apply in_map_iff in H as (i & <- & H). apply in_seq in H. split; [reflexivity|].
    unfold id. apply Forall_app. split; [repeat constructor; lia|]. repeat constructor; lia.
  - intros d H. apply in_app_or in H as [H|H]; [|eapply rounds_tick; eauto]. exfalso. unfold long in H. apply in_app_or in H as [H|[H|[]]]; [|discriminate].
    apply in_map_iff in H as (i & H & _). discriminate.
Qed.

Lemma long_run big : exists s, run (long big) (init 1) = Ok s /\ now s = 1 /\ results s = [] /\ stamps s (id 32) = [1] /\
  Forall (fun e => r_expires (snd e) = 1 + big /\ r_received (snd e) = 0) (firstn 31 (elements (root (handlers s)))).
Proof.
  eexists. split; [vm_compute; reflexivity|]. split; [reflexivity|]. split; [reflexivity|]. split; [vm_compute; reflexivity|].
  cbn [handlers root elements app firstn]. repeat constructor.
Qed.

Lemma starve n k : (k <= n)%nat -> exists s, run (long (2 * Z.of_nat n) ++ concat (repeat round k)) (init 1) = Ok s /\
  now s = 1 + 2 * Z.of_nat k /\ results s = [] /\ length (stamps s (id 32)) = S k /\
  Forall (fun e => r_expires (snd e) = 1 + 2 * Z.of_nat n /\ r_received (snd e) = 0) (firstn 31 (elements (root (handlers s)))).
Proof.
  induction k as [|k IH]; intros L.
  - cbn [repeat concat]. rewrite app_nil_r. destruct (long_run (2 * Z.of_nat n)) as (s & E & A1 & A2 & A3 & A4).
    exists s. split; [exact E|]. split; [exact A1|]. split; [exact A2|]. split; [rewrite A3; reflexivity|exact A4].
  - destruct IH as (s & E & A1 & A2 & A3 & A4); [lia|].
    replace (concat (repeat round (S k))) with (concat (repeat round k) ++ round).
    2:{ clear. replace (repeat round (S k)) with (repeat round k ++ [round]) by (rewrite <- repeat_cons; reflexivity).
        rewrite concat_app. cbn [concat]. rewrite app_nil_r. reflexivity. }
    rewrite app_assoc. set (h := long (2 * Z.of_nat n) ++ concat (repeat round k)) in *.
    pose proof (starving_fair (2 * Z.of_nat n) k) as F. fold h in F. destruct (good_run h 1 s ltac:(lia) F E) as (m & G).
    assert (Ft : fair (h ++ [Tick 2])).
    { destruct F as (F1 & F2 & F3). split; [|split].
      - rewrite started_app. cbn [started start]. rewrite app_nil_r. exact F1.
      - rewrite started_app. cbn [started start]. rewrite app_nil_r. exact F2.
      - intros d H. apply in_app_or in H as [H|[H|[]]]; [auto|]. injection H. lia. }
    destruct (good_tick h s m 2 G Ft) as (s1 & m1 & E1 & G1).
    pose proof E1 as E0. cbn [step] in E1. injection E1 as E1.
    assert (C : finished s1 = []).
    { apply finished_quiet. rewrite <- E1. cbn [handlers now]. eapply Forall_impl; [|exact A4]. cbn beta. intros e [B1 B2]. lia. }
    destruct (good_cleanup _ s1 m1 G1) as (s2 & m2 & E2 & G2). pose proof (cleanup_quiet s1 C) as E2'.
    assert (Q2 : s2 = s1) by (exact (ok_inj _ _ _ E2 E2')).
    subst s2. destruct (good_channel _ s1 m2 G2) as (s3 & m3 & E3 & G3).
    assert (Hx : In (Send (id 32) 1 1 1) h) by (apply in_or_app; left; unfold long; apply in_or_app; right; left; reflexivity).
    assert (Hn : ~ reported s1 (id 32)) by (unfold reported; rewrite <- E1; cbn [results]; rewrite A2; auto).
    assert (Es : stamps s1 (id 32) = stamps s (id 32)) by (rewrite <- E1; reflexivity).
    assert (Hc : In (id 32) (map c_uuid (copies s1))).
    { apply (g_msg _ _ _ G1 (id 32) 1 1 1); [apply in_or_app; left; exact Hx|exact Hn]. }
    apply in_map_iff in Hc as (c & Ec & Hc). pose proof (channel_stamps _ s1 m2 s3 c G2 E3 Hc) as St. rewrite Ec in St.
    destruct (g_copy _ _ _ G1 c Hc) as (B1 & _ & B3). rewrite Ec in B1, B3.
    destruct (send_inj _ (id 32) _ _ _ 1 1 1 (g_nodup _ _ _ G1) B1) as (Q1 & _ & Q3); [apply in_or_app; left; exact Hx|].
    rewrite Q1, Q3, Es, A3 in B3.
    assert (N1 : now s1 = 1 + 2 * Z.of_nat (S k)) by (rewrite <- E1; cbn [now]; lia).
    assert (R3 : now s3 = now s1 /\ results s3 = results s1 /\ handlers s3 = handlers s1).
    { cbn [step] in E3. rewrite (redeliver_spec _ s1 m2 G2) in E3. injection E3 as <-. auto. }
    exists s3. split; [|split; [|split; [|split]]].
    + rewrite run_app, E. unfold round. cbn [obind run]. rewrite E0. cbn [obind]. rewrite E2. cbn [obind]. rewrite E3. reflexivity.
    + destruct R3 as (-> & _). exact N1.
    + destruct R3 as (_ & -> & _). rewrite <- E1. exact A2.
    + rewrite St, Es, app_length, A3. destruct (Z.ltb_spec (c_at c) (now s1)); [cbn; lia|]. lia.
    + destruct R3 as (_ & _ & ->). rewrite <- E1. exact A4.
Qed.

Theorem C73_starved_refuted : forall n : nat, exists s,
  fair (starving n) /\ In (Send (id 32) 1 1 1) (starving n) /\ rounds (starving n) = n /\
  run (starving n) (init 1) = Ok s /\ now s = 1 + 2 * Z.of_nat n /\ ~ reported s (id 32) /\ length (stamps s (id 32)) = S n.
Proof.
  intros n. destruct (starve n n (le_n n)) as (s & E & A1 & A2 & A3 & _). exists s.
  split; [apply starving_fair|]. split; [apply in_or_app; left; unfold long; apply in_or_app; right; left; reflexivity|]. split.
  - unfold rounds, starving. rewrite filter_app, app_length. cbn [long]. replace (length (filter _ (long _))) with 0%nat by reflexivity.
    cbn [plus]. clear. induction n as [|n IH]; [reflexivity|]. cbn [repeat concat]. rewrite filter_app, app_length, IH. reflexivity.
  - split; [exact E|]. split; [exact A1|]. split; [unfold reported; rewrite A2; auto|exact A3].
Qed.

(** The cases are not empty: sent at 100, again at 105 and 110, late after 115 *)
Example C73_late : exists s, run [Send (id 1) 100 15 5; Tick 6; ChannelCheck; Ping (id 2) 106 10; Tick 3; ChannelCheck; Tick 2; ChannelCheck;
    AckCheck; Tick 9; AckCheck; Tick 6; ChannelCheck] (init 100) = Ok s /\
  stamps s (id 1) = [100; 105; 110] /\ results s = [(id 1, TimedOut); (id 2, TimedOut)].
Proof. eexists. split; [vm_compute; reflexivity|]. repeat split; vm_compute; reflexivity. Qed.

Print Assumptions C72_single_partial.
Print Assumptions C72_any_refuted.
Print Assumptions C72_ack_refuted.
Print Assumptions C72_null_refuted.
Print Assumptions C73_stamps.
Print Assumptions C73_resent.
Print Assumptions C73_silent.
Print Assumptions C73_reports.
Print Assumptions C73_ends_partial.
Print Assumptions C73_starved_refuted.
