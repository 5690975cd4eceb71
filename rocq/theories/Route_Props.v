(** C26, C27, C53: routing table, leafset and the next hop *)
From Verif Require Import Base Dhkey_Model Dhkey_Spec Dhkey_Proofs Dhkey_Props Keycache_Model Keycache_Spec Keycache_Proofs Keycache_Props
  Route_Model Route_Spec Route_Proofs Route_Leaf Route_Hist Route_Sched Route_Look.

Definition history (me : key) (size : Z) (ns : list node) (es : list event) (r : route) : Prop :=
  wf_key me /\ proper ns /\ (forall e, In e es -> In (event_node e) ns) /\ run_events (np_route_init me size) es = Ok r.
Lemma history_all me size ns es r : history me size ns es r -> All ns r /\ my r = me /\ leafset_size r = u16 size.
Proof.
  intros (Hm & PR & H & E). destruct (all_events ns es (np_route_init me size) PR (all_init ns me size Hm) H) as (r' & E' & A & M & S).
  assert (r' = r) by congruence. subst r'. auto.
Qed.

(** ** C26 *)
(** Any sequence of calls is carried out without failure. *)
Theorem C26_total : forall me size ns es, wf_key me -> proper ns -> (forall e, In e es -> In (event_node e) ns) ->
  exists r, run_events (np_route_init me size) es = Ok r.
Proof.
  intros me size ns es Hm PR H. destruct (all_events ns es (np_route_init me size) PR (all_init ns me size Hm) H) as (r & E & _). eauto.
Qed.
(** Every entry is in the row of its common prefix with the own id and in the column of its next digit, and is not the own
    id; the counter is the number of entries; each entry holds one reference of its object. *)
Theorem C26_places : forall me size ns es r, history me size ns es r ->
  (forall s x, table r s = Some x -> fst x <> me /\
     exists j e, 0 <= j < 16 /\ 0 <= e < 3 /\ digit (fst x) (shared me (fst x)) = hexdigit j /\ s = 3 * (16 * Z.of_nat (shared me (fst x)) + j) + e) /\
  np_get_route_count r = Z.of_nat (length (np_route_get_table r)) /\
  (forall o, in_route r o = times o (np_route_get_table r)).
Proof.
  intros me size ns es r H. destruct (history_all _ _ _ _ _ H) as (((_ & P & C) & _ & _ & HC) & <- & _). split; [|split; [exact C|intros o; apply HC]].
  intros s x E. destruct (P s x E) as (W & N & j & e & -> & Rj & Re & D). split; [exact N|]. exists j, e. unfold slot, MAX_ENTRY, MAX_COL. repeat (split; [auto; lia|]). lia.
Qed.
(** What one call does, after any history. *)
Theorem C26_update : forall me size ns es r n joined lat, history me size ns es r -> In n ns ->
  exists r' d a, np_route_update r n joined lat = Ok (r', d, a) /\
    table_effect me lat n joined (np_route_get_table r) (np_route_get_table r') d a /\ left r' = left r /\ right r' = right r.
Proof.
  intros me size ns es r n joined lat H Hn. destruct (history_all _ _ _ _ _ H) as (A & <- & _). destruct H as (_ & PR & _).
  destruct (all_update ns r n joined lat PR A Hn) as (r' & d & a & E & _ & SR & TE). exists r', d, a. split; [exact E|]. split; [exact TE|].
  unfold same_rest in SR. tauto.
Qed.

(** The handlers of the nodes: a node is in the table at most once; its flag tells whether it is; after it left, it is not
    in the table and holds no reference. *)
Definition life (me : key) (size : Z) (ns : list node) (ms : list move) (h : hood) : Prop :=
  wf_key me /\ proper ns /\ (forall m, In m ms -> In (move_node m) ns) /\ run_moves (new_hood me size) ms = Ok h.
Lemma life_inv me size ns ms h : life me size ns ms h -> HInv ns h /\ my (rt h) = me.
Proof.
  intros (Hm & PR & H & E). destruct (hood_moves ns ms (new_hood me size) PR (hood_init ns me size Hm) H) as (h' & E' & A & M).
  assert (h' = h) by congruence. subst h'. auto.
Qed.
Theorem C26_life_total : forall me size ns ms, wf_key me -> proper ns -> (forall m, In m ms -> In (move_node m) ns) ->
  exists h, run_moves (new_hood me size) ms = Ok h.
Proof. intros me size ns ms Hm PR H. destruct (hood_moves ns ms (new_hood me size) PR (hood_init ns me size Hm) H) as (h & E & _). eauto. Qed.
Theorem C26_once : forall me size ns ms h, life me size ns ms h ->
  NoDup (map fst (np_route_get_table (rt h))) /\
  (forall o, times o (np_route_get_table (rt h)) = if flag h o then 1 else 0) /\ (forall o, in_route (rt h) o = if flag h o then 1 else 0).
Proof.
  intros me size ns ms h H. destruct (life_inv _ _ _ _ _ H) as ((A & D & FL & _) & _). pose proof A as (_ & _ & (W & _) & HC).
  assert (T : forall o, times o (np_route_get_table (rt h)) = if flag h o then 1 else 0).
  { intros o. pose proof (nodup_times ns _ o (proj1 (proj2 H)) W D). specialize (FL o). rewrite <- times_in in FL.
    assert (0 <= times o (np_route_get_table (rt h))) by (unfold times; lia).
    destruct (flag h o); [destruct FL as [FL _]; specialize (FL eq_refl); lia|].
    destruct (Z.eq_dec (times o (np_route_get_table (rt h))) 0); [assumption|]. destruct FL as [_ FL]. assert (false = true) by (apply FL; lia). discriminate. }
  split; [exact D|]. split; [exact T|]. intros o. rewrite <- T. apply HC.
Qed.
Theorem C26_leave : forall me size ns ms n lat h, life me size ns (ms ++ [LeaveTable n lat]) h ->
  ~ In (fst n) (map fst (np_route_get_table (rt h))) /\ in_route (rt h) (snd n) = 0.
Proof.
  intros me size ns ms n lat h H. pose proof H as (Hm & PR & HM & E).
  assert (Hn : In n ns) by (apply (HM (LeaveTable n lat)); apply in_app_iff; right; left; reflexivity).
  assert (HM1 : forall m, In m ms -> In (move_node m) ns) by (intros m Hx; apply HM; apply in_app_iff; auto).
  destruct (hood_moves ns ms (new_hood me size) PR (hood_init ns me size Hm) HM1) as (h1 & E1 & I1 & M1).
  assert (E2 : node_leaves_table h1 n lat = Ok h).
  { clear - E E1. revert E E1. generalize (new_hood me size). induction ms as [|m ms IH]; intros h0 E E1; cbn in *.
    - injection E1 as ->. destruct (node_leaves_table h1 n lat); cbn in E; congruence.
    - destruct (run_move h0 m); cbn in *; [eauto|discriminate|discriminate]. }
  destruct (C26_once _ _ _ _ _ H) as (D & T & RF). pose proof (life_inv _ _ _ _ _ H) as ((_ & _ & _ & _) & _).
  assert (F : flag h (snd n) = false).
  { unfold node_leaves_table in E2. destruct (flag h1 (snd n)) eqn:F1; [|congruence].
    destruct (np_route_update (rt h1) n false lat) as [[[r' d] a]| |] eqn:U; cbn [obind fst snd] in E2; try discriminate.
    assert (Eh : flag h = set_flag (flag h1) d false) by (injection E2; intros <-; reflexivity). rewrite Eh.
    destruct I1 as (A1 & D1 & FL1 & _). destruct (all_update ns (rt h1) n false lat PR A1 Hn) as (r2 & d2 & a2 & U2 & _ & _ & TE).
    rewrite U in U2. assert (d2 = d) by congruence. subst d2. apply FL1 in F1. apply (keys_objects ns) in F1; auto; [|apply A1].
    inversion TE as [? ? Own| | | | |? ? ? ? ? ? ?|? Gone]; subst.
    - exfalso. apply in_map_iff in F1. destruct F1 as (y & Ey & Hy). rewrite get_table_tbl in Hy. apply tbl_in in Hy. destruct Hy as (s & _ & Es).
      destruct A1 as ((_ & P & _) & _). destruct (P s y Es) as (_ & N & _). congruence.
    - rewrite set_flag_some, Z.eqb_refl. reflexivity.
    - exfalso. apply in_map_iff in F1. destruct F1 as (y & Ey & Hy). exact (Gone y Hy Ey). }
  rewrite RF, F. split; [|reflexivity]. intros C. destruct (life_inv _ _ _ _ _ H) as ((A & _) & _). apply (keys_objects ns) in C; auto; [|apply A].
  apply times_in in C. rewrite T, F in C. lia.
Qed.

(** The same under all schedules of the handlers on any number of threads: a node is in the table at most once, at its
    place, the counter and the references are right, and when the handlers are done, every node in the table has its
    flag, so it will leave when its handler tells it to. *)
Definition executed (me : key) (size : Z) (ns : list node) (cs : list choice) (s : sched) : Prop :=
  wf_key me /\ proper ns /\ (forall c, In c cs -> incl (choice_node c) ns) /\ schedule (new_sched me size) cs = Ok s.
Theorem C26_all_schedules : forall me size ns cs s, executed me size ns cs s ->
  NoDup (map fst (np_route_get_table (srt s))) /\
  (forall i x, table (srt s) i = Some x -> fst x <> me /\
     exists j e, 0 <= j < 16 /\ 0 <= e < 3 /\ digit (fst x) (shared me (fst x)) = hexdigit j /\ i = 3 * (16 * Z.of_nat (shared me (fst x)) + j) + e) /\
  np_get_route_count (srt s) = Z.of_nat (length (np_route_get_table (srt s))) /\
  (forall o, in_route (srt s) o = times o (np_route_get_table (srt s))) /\
  (threads s = [] -> forall x, In x (np_route_get_table (srt s)) -> sflag s (snd x) = true).
Proof.
  intros me size ns cs s (Hm & PR & H & E). destruct (schedule_ok ns cs (new_sched me size) PR (sched_init ns me size Hm) H) as (s' & E' & HS & M).
  assert (s' = s) by congruence. subst s'. cbn in M. destruct HS as (((_ & P & C) & _ & _ & HC) & D & _ & _ & _ & I2 & _ & _).
  split; [exact D|]. split; [|split; [exact C|split; [intros o; apply HC|]]].
  - intros i x Ex. rewrite M in P. destruct (P i x Ex) as (W & N & j & e & -> & Rj & Re & Dg). split; [exact N|]. exists j, e. unfold slot, MAX_ENTRY, MAX_COL. repeat (split; [auto; lia|]). lia.
  - intros T x Hx. destruct (I2 (snd x)) as [F|(n & ac & F & _)]; [apply in_map; exact Hx|exact F|]. rewrite T in F. destruct F.
Qed.
(** Also under all schedules: when the handler of a leaving node has run its step, the node is not in the table. *)
Theorem C26_leave_all_schedules : forall me size ns cs s i n acts lat s', executed me size ns cs s ->
  nth_error (threads s) i = Some (n, ALeave n :: acts) -> sched_step s (CGo i lat) = Ok s' ->
  ~ In (fst n) (map fst (np_route_get_table (srt s'))) /\ in_route (srt s') (snd n) = 0.
Proof.
  intros me size ns cs s i n acts lat s' (Hm & PR & H & E) T E'. destruct (schedule_ok ns cs (new_sched me size) PR (sched_init ns me size Hm) H) as (s0 & E0 & HS & M).
  assert (s0 = s) by congruence. subst s0. destruct HS as (A & D & Sh & _). pose proof (shape_tail _ _ _ _ _ Sh T) as [Hn _]. cbn [fst] in Hn.
  cbn [sched_step] in E'. rewrite T in E'. destruct (all_update ns (srt s) n false lat PR A Hn) as (r' & d & a & U & A' & SR & TE). rewrite U in E'. cbn [obind fst snd] in E'.
  assert (Es : srt s' = r') by (injection E'; intros <-; reflexivity). rewrite Es.
  assert (G : ~ In (fst n) (map fst (np_route_get_table r'))).
  { inversion TE as [? ? Own| | | | |? ? x rest P1 Ex P2|? Gone].
    - intros C. apply in_map_iff in C. destruct C as (y & Ey & Hy). rewrite get_table_tbl in Hy. apply tbl_in in Hy. destruct Hy as (sl & _ & Ey2).
      destruct A as ((_ & P' & _) & _). destruct (P' sl y Ey2) as (_ & N & _). apply N. rewrite Ey. exact Own.
    - intros C. rewrite (Permutation_map fst P2) in C. pose proof (Permutation_NoDup (Permutation_map fst P1) D) as D1. cbn in D1. inversion D1; subst. congruence.
    - intros C. apply in_map_iff in C. destruct C as (y & Ey & Hy). exact (Gone y Hy Ey). }
  split; [exact G|]. destruct A' as (_ & _ & (W & _) & HC). rewrite (proj1 (HC (snd n))). apply times_zero. rewrite <- (keys_objects ns); auto.
Qed.
Theorem C26_schedules_total : forall me size ns cs, wf_key me -> proper ns -> (forall c, In c cs -> incl (choice_node c) ns) ->
  exists s, schedule (new_sched me size) cs = Ok s.
Proof. intros me size ns cs Hm PR H. destruct (schedule_ok ns cs (new_sched me size) PR (sched_init ns me size Hm) H) as (s & E & _). eauto. Qed.

(** *** Examples *)
Definition rk (a b : Z) : key := [a; b; 0; 0; 0; 0; 0; 0].
Definition me0 : key := rk 0 0.
Definition nA : node := (rk 0x10000000 0, 1).
Definition nB : node := (rk 0x11000000 0, 2).
Definition nC : node := (rk 0x12000000 0, 3).
Definition nD : node := (rk 0x13000000 0, 4).
Definition nE : node := (rk 0x00100000 0, 5).
Definition some_nodes : list node := [nA; nB; nC; nD; nE].
(** The node 3 is slow *)
Definition slow3 (o : Z) : Z := if o =? 3 then one else 0.
Definition quick (o : Z) : Z := 0.
Lemma some_proper : proper some_nodes.
Proof.
  split.
  - repeat constructor; cbn; lia.
  - intros a b Ha Hb. unfold some_nodes in *. cbn in Ha, Hb.
    destruct Ha as [<-|[<-|[<-|[<-|[<-|[]]]]]], Hb as [<-|[<-|[<-|[<-|[<-|[]]]]]]; cbn; split; intros; try reflexivity; try discriminate.
Qed.
Lemma me0_wf : wf_key me0.
Proof. repeat constructor; cbn; lia. Qed.
(** Four nodes compete for three places: the slow one has to go, and is flagged no more *)
Example C26_ex : exists h, life me0 7 some_nodes [EnterTable nA quick; EnterTable nB quick; EnterTable nC quick; EnterTable nE quick; EnterTable nD slow3; LeaveTable nA quick] h /\
  np_route_get_table (rt h) = [nE; nB; nD] /\ map (flag h) [1; 2; 3; 4; 5] = [false; true; false; true; true] /\ np_get_route_count (rt h) = 3.
Proof.
  destruct (C26_life_total me0 7 some_nodes [EnterTable nA quick; EnterTable nB quick; EnterTable nC quick; EnterTable nE quick; EnterTable nD slow3; LeaveTable nA quick]) as (h & E).
  - exact me0_wf.
  - exact some_proper.
  - intros m Hm. cbn in Hm. repeat (destruct Hm as [<-|Hm]; [cbn; auto 10|]). destruct Hm.
  - exists h. split.
    + split; [exact me0_wf|]. split; [exact some_proper|]. split; [|exact E]. intros m Hm. cbn in Hm. repeat (destruct Hm as [<-|Hm]; [cbn; auto 10|]). destruct Hm.
    + assert (K : match run_moves (new_hood me0 7) [EnterTable nA quick; EnterTable nB quick; EnterTable nC quick; EnterTable nE quick; EnterTable nD slow3; LeaveTable nA quick] with
        | Ok h => np_route_get_table (rt h) = [nE; nB; nD] /\ map (flag h) [1; 2; 3; 4; 5] = [false; true; false; true; true] /\ np_get_route_count (rt h) = 3
        | _ => False end) by (vm_compute; auto). rewrite E in K. exact K.
Qed.
(** Handlers on three threads; B's second event finds its handler busy *)
Example C26_schedule_ex : exists cs s, executed me0 7 some_nodes cs s /\
  cs = [CEnter nA; CEnter nB; CEnter nC; CGo 2 quick; CGo 0 quick; CGo 1 quick; CEnter nB; CGo 0 quick; CGo 0 quick; CGo 0 quick; CLeave nA; CEnter nE; CGo 0 quick; CGo 0 quick; CGo 0 quick; CGo 0 quick] /\
  np_route_get_table (srt s) = [nE; nC; nB] /\ threads s = [] /\ map (sflag s) [1; 2; 3; 5] = [false; true; true; true].
Proof.
  set (cs := [CEnter nA; CEnter nB; CEnter nC; CGo 2 quick; CGo 0 quick; CGo 1 quick; CEnter nB; CGo 0 quick; CGo 0 quick; CGo 0 quick; CLeave nA; CEnter nE; CGo 0 quick; CGo 0 quick; CGo 0 quick; CGo 0 quick]).
  assert (HN : forall c, In c cs -> incl (choice_node c) some_nodes) by (intros c Hc; cbn in Hc; repeat (destruct Hc as [<-|Hc]; [intros x Hx; cbn in *; tauto|]); destruct Hc).
  destruct (C26_schedules_total me0 7 some_nodes cs me0_wf some_proper HN) as (s & E). exists cs, s.
  split; [exact (conj me0_wf (conj some_proper (conj HN E)))|]. split; [reflexivity|].
  assert (K : match schedule (new_sched me0 7) cs with
    | Ok s => np_route_get_table (srt s) = [nE; nC; nB] /\ threads s = [] /\ map (sflag s) [1; 2; 3; 5] = [false; true; true; true] | _ => False end) by (vm_compute; auto).
  rewrite E in K. exact K.
Qed.

(** FINDING: the flags are written outside the lock of the module.  C's handler has put C into the table but has not
    written its flag yet when D displaces C: then C is flagged though it is not in the table, and its handler will never
    put it there again.  So "the flag tells whether the node is in the table" is false with several threads. *)
Theorem C26_flag_race_refuted : exists cs s, executed me0 7 some_nodes cs s /\ threads s = [] /\ sflag s (snd nC) = true /\
  ~ In nC (np_route_get_table (srt s)) /\ forall lat, sched_step s (CEnter nC) = Ok s /\ sched_step s (CGo 0 lat) = Ok s.
Proof.
  set (cs := [CEnter nA; CGo 0 quick; CGo 0 quick; CEnter nB; CGo 0 quick; CGo 0 quick; CEnter nC; CGo 0 slow3; CEnter nD; CGo 1 slow3; CGo 1 slow3; CGo 1 slow3; CGo 0 slow3]).
  assert (HN : forall c, In c cs -> incl (choice_node c) some_nodes) by (intros c Hc; cbn in Hc; repeat (destruct Hc as [<-|Hc]; [intros x Hx; cbn in *; tauto|]); destruct Hc).
  destruct (C26_schedules_total me0 7 some_nodes cs me0_wf some_proper HN) as (s & E). exists cs, s.
  split; [exact (conj me0_wf (conj some_proper (conj HN E)))|].
  assert (K : match schedule (new_sched me0 7) cs with
    | Ok s => np_route_get_table (srt s) = [nA; nB; nD] /\ threads s = [] /\ sflag s (snd nC) = true | _ => False end) by (vm_compute; auto).
  rewrite E in K. destruct K as (K1 & K2 & K3). split; [exact K2|]. split; [exact K3|]. split.
  - rewrite K1. cbn. intros [C|[C|[C|[]]]]; discriminate.
  - intros lat. cbn [sched_step]. rewrite K3, orb_true_r, K2. auto.
Qed.

(** FINDING: the routing module alone does not keep this: when B joins again after a gap was left before it, it is stored
    twice, and a leave removes it only once.  The flags of the callers prevent this. *)
Theorem C26_once_refuted : exists es r, history me0 7 some_nodes es r /\ es = [Update nA true quick; Update nB true quick; Update nA false quick; Update nB true quick; Update nB false quick] /\
  np_route_get_table r = [nB].
Proof.
  set (es := [Update nA true quick; Update nB true quick; Update nA false quick; Update nB true quick; Update nB false quick]).
  assert (HN : forall e, In e es -> In (event_node e) some_nodes) by (intros e He; cbn in He; repeat (destruct He as [<-|He]; [cbn; auto 10|]); destruct He).
  destruct (C26_total me0 7 some_nodes es me0_wf some_proper HN) as (r & E). exists es, r.
  split; [exact (conj me0_wf (conj some_proper (conj HN E)))|]. split; [reflexivity|].
  assert (K : match run_events (np_route_init me0 7) es with Ok r => np_route_get_table r = [nB] | _ => False end) by (vm_compute; reflexivity).
  rewrite E in K. exact K.
Qed.

(** ** C27 *)
(** After any history both halves of the leafset hold nodes of their half of the ring, sorted by distance, none twice, none
    is the own id, not more than the size allows; the counters are right; each holds one reference. *)
Theorem C27_leafset : forall me size ns es r, history me size ns es r ->
  sorted_by_distance me (left r) /\ sorted_by_distance me (right r) /\ NoDup (map fst (left r ++ right r)) /\ ~ In me (map fst (left r ++ right r)) /\
  Forall (fun x => ~ in_right_half me (fst x)) (left r) /\ Forall (fun x => in_right_half me (fst x)) (right r) /\
  Z.of_nat (length (left r)) <= u16 size /\ Z.of_nat (length (right r)) <= u16 size /\
  np_route_count_neighbors r = u16 (Z.of_nat (length (left r ++ right r))) /\
  (forall o, in_leafset r o = times o (left r ++ right r)).
Proof.
  intros me size ns es r H. destruct (history_all _ _ _ _ _ H) as ((_ & HL & _ & HC) & <- & <-). pose proof (leafset_nodup r HL) as D.
  destruct HL as (Hm & Rs & (F1 & D1 & S1 & L1) & (F2 & D2 & S2 & L2) & _ & _ & C1 & C2).
  split; [exact S1|]. split; [exact S2|]. split; [exact D|]. split.
  { intros C. apply in_map_iff in C. destruct C as (x & Ex & Hx). rewrite Forall_forall in F1, F2. apply in_app_iff in Hx.
    destruct Hx as [Hx|Hx]; [apply F1 in Hx|apply F2 in Hx]; destruct Hx as (_ & N & _); contradiction. }
  split; [eapply Forall_impl; [|exact F1]; intros x K; apply K|]. split; [eapply Forall_impl; [|exact F2]; intros x K; apply K|].
  split; [exact L1|]. split; [exact L2|]. split; [unfold np_route_count_neighbors; rewrite C1, C2, app_length; f_equal; lia|]. intros o. apply HC.
Qed.
(** What one call does, after any history: an arriving node only displaces the farthest node of its half. *)
Theorem C27_update : forall me size ns es r n joined, history me size ns es r -> In n ns ->
  exists r' d a, np_route_leafset_update r n joined = Ok (r', d, a) /\
    leafset_effect me (u16 size) n (left r) (right r) joined (left r') (right r') d a /\ np_route_get_table r' = np_route_get_table r.
Proof.
  intros me size ns es r n joined H Hn. destruct (history_all _ _ _ _ _ H) as (A & <- & <-). destruct H as (_ & PR & _).
  destruct (all_leafset ns r n joined PR A Hn) as (r' & d & a & E & _ & SR & TE). exists r', d, a. split; [exact E|]. split; [exact TE|].
  rewrite !get_table_tbl. unfold same_table in SR. destruct SR as (_ & -> & _). reflexivity.
Qed.
(** The flags of the nodes tell whether they are in the leafset. *)
Theorem C27_flags : forall me size ns ms h, life me size ns ms h ->
  forall o, leaf_flag h o = true <-> In o (map snd (left (rt h) ++ right (rt h))).
Proof. intros me size ns ms h H. destruct (life_inv _ _ _ _ _ H) as ((_ & _ & _ & F) & _). exact F. Qed.
(** All neighbours in the order of their distance *)
Theorem C27_neighbors : forall me size ns es r, history me size ns es r ->
  exists l, np_route_neighbors r = Ok l /\ Permutation l (left r ++ right r) /\ sorted_by_distance me l.
Proof.
  intros me size ns es r H. destruct (history_all _ _ _ _ _ H) as ((_ & HL & _ & _) & <- & _). destruct HL as (Hm & _ & HL & HR & _).
  assert (FW : Forall (fun x : node => wf_key (fst x)) (left r ++ right r)) by (apply Forall_app; split; [eapply half_wf; exact HL|eapply half_wf; exact HR]).
  destruct (C28_sort_by_distance node fst (left r ++ right r) (my r) Hm FW) as (l & E & P & S). exists l. unfold np_route_neighbors.
  rewrite E by lia. split; [reflexivity|]. split; [symmetry; exact P|exact S].
Qed.

Definition ring_nodes : list node := [(rk 0 1, 1); (rk 0 2, 2); (rk 0 3, 3); (rk 0xffffffff 0xffffffff, 4)].
Lemma ring_proper : proper ring_nodes.
Proof.
  split.
  - repeat constructor; cbn; lia.
  - intros a b Ha Hb. cbn in Ha, Hb.
    destruct Ha as [<-|[<-|[<-|[<-|[]]]]], Hb as [<-|[<-|[<-|[<-|[]]]]]; cbn; split; intros; try reflexivity; try discriminate.
Qed.
(** The third node on the right is displaced by a closer one *)
Example C27_ex : exists es r, history me0 2 ring_nodes es r /\
  es = [LeafUpdate (rk 0 3, 3) true; LeafUpdate (rk 0xffffffff 0xffffffff, 4) true; LeafUpdate (rk 0 1, 1) true; LeafUpdate (rk 0 2, 2) true] /\
  right r = [(rk 0 1, 1); (rk 0 2, 2)] /\ left r = [(rk 0xffffffff 0xffffffff, 4)].
Proof.
  set (es := [LeafUpdate (rk 0 3, 3) true; LeafUpdate (rk 0xffffffff 0xffffffff, 4) true; LeafUpdate (rk 0 1, 1) true; LeafUpdate (rk 0 2, 2) true]).
  assert (HN : forall e, In e es -> In (event_node e) ring_nodes) by (intros e He; cbn in He; repeat (destruct He as [<-|He]; [cbn; auto 10|]); destruct He).
  destruct (C26_total me0 2 ring_nodes es me0_wf ring_proper HN) as (r & E). exists es, r.
  split; [exact (conj me0_wf (conj ring_proper (conj HN E)))|]. split; [reflexivity|].
  assert (K : match run_events (np_route_init me0 2) es with Ok r => right r = [(rk 0 1, 1); (rk 0 2, 2)] /\ left r = [(rk 0xffffffff 0xffffffff, 4)] | _ => False end) by (vm_compute; auto).
  rewrite E in K. exact K.
Qed.

(** FINDING: the leafset is sorted by the distance of the library, but a new node is admitted by its position on the ring.
    The two disagree, so the leafset need not hold the closest nodes: a closer node is turned away. *)
Definition far_node : node := (rk 1 4, 1).
Definition near_node : node := (rk 1 5, 2).
Theorem C27_closest_refuted : exists es r, history (rk 0 5) 1 [far_node; near_node] es r /\
  es = [LeafUpdate far_node true; LeafUpdate near_node true] /\ distance_to (rk 0 5) (fst near_node) < distance_to (rk 0 5) (fst far_node) /\
  in_right_half (rk 0 5) (fst near_node) /\ left r ++ right r = [far_node].
Proof.
  set (es := [LeafUpdate far_node true; LeafUpdate near_node true]).
  assert (W : wf_key (rk 0 5)) by (repeat constructor; cbn; lia).
  assert (PR : proper [far_node; near_node]).
  { split; [repeat constructor; cbn; lia|]. intros a b Ha Hb. cbn in Ha, Hb. destruct Ha as [<-|[<-|[]]], Hb as [<-|[<-|[]]]; cbn; split; intros; try reflexivity; try discriminate. }
  assert (HN : forall e, In e es -> In (event_node e) [far_node; near_node]) by (intros e He; cbn in He; repeat (destruct He as [<-|He]; [cbn; auto 10|]); destruct He).
  destruct (C26_total (rk 0 5) 1 [far_node; near_node] es W PR HN) as (r & E). exists es, r.
  split; [exact (conj W (conj PR (conj HN E)))|]. split; [reflexivity|]. split; [vm_compute; reflexivity|]. split.
  - apply right_half_spec; [exact W|repeat constructor; cbn; lia|vm_compute; reflexivity].
  - assert (K : match run_events (np_route_init (rk 0 5) 1) es with Ok r => left r ++ right r = [far_node] | _ => False end) by (vm_compute; auto).
    rewrite E in K. exact K.
Qed.

(** ** C53 *)
(** The answer of the search for the next hop, after any history, for any id but the own one. *)
Theorem C53_lookup : forall me size ns es r k count lat suc, history me size ns es r -> wf_key k -> k <> me -> 0 <= count ->
  exists l, np_route_lookup r k count lat suc = Ok l /\ next_hop me k count lat suc (np_route_get_table r) (left r) (right r) l.
Proof.
  intros me size ns es r k count lat suc H Hk N Hc. destruct (history_all _ _ _ _ _ H) as (A & <- & _). destruct H as (_ & PR & _).
  apply lookup_spec with ns; auto.
Qed.
(** So there is at most one hop, and it is a known neighbour. *)
Theorem C53_neighbour : forall me size ns es r k count lat suc l, history me size ns es r -> wf_key k -> k <> me -> 1 <= count ->
  np_route_lookup r k count lat suc = Ok l -> l = [] \/ exists x, l = [x] /\ In x (np_route_get_table r ++ left r ++ right r) /\ fst x <> me.
Proof.
  intros me size ns es r k count lat suc l H Hk N Hc E. destruct (C53_lookup me size ns es r k count lat suc H Hk N ltac:(lia)) as (l' & E' & NH).
  assert (l' = l) by congruence. subst l'. destruct (C27_leafset _ _ _ _ _ H) as (_ & _ & _ & NM & _).
  assert (NT : forall x : node, In x (np_route_get_table r) -> fst x <> me).
  { intros x Hx. rewrite get_table_tbl in Hx. apply tbl_in in Hx. destruct Hx as (s & _ & Es). destruct (C26_places _ _ _ _ _ H) as (P & _). apply (P s x Es). }
  inversion NH; subst; try (left; reflexivity); try lia; right; eexists; (split; [reflexivity|]); rewrite !in_app_iff.
  - match goal with K : In _ (left r ++ right r) |- _ => rename K into KI end. split; [rewrite in_app_iff in KI; tauto|].
    intros C. apply NM. rewrite <- C. apply in_map. exact KI.
  - split; auto.
  - split; auto.
Qed.
(** Prefix routing makes progress: as long as each node on the way knows a usable node that shares more digits with the
    target, a message takes at most 64 hops and never visits a node twice. *)
Lemma hop_progress k count a b : wf_key k -> a <> k -> 1 <= count -> prefix_hop k count a b -> (shared a k < shared b k)%nat /\ wf_key b.
Proof.
  intros Hk N Hc (size & es & ns & r & lat & suc & x & y & Hm & PR & HE & E & L & <- & Hy & Uy & Oy & NC).
  assert (H : history a size ns es r) by (exact (conj Hm (conj PR (conj HE E)))).
  assert (WT : forall z : node, In z (np_route_get_table r) -> wf_key (fst z)).
  { intros z Hz. destruct (history_all _ _ _ _ _ H) as ((_ & _ & (W & _) & _) & _). destruct PR as [F _]. rewrite Forall_forall in F. apply F. apply W. exact Hz. }
  destruct (C53_lookup a size ns es r k count lat suc H Hk (fun C => N (eq_sym C)) ltac:(lia)) as (l & El & NH). assert (l = [x]) by congruence. subst l.
  inversion NH; subst; try (exfalso; tauto); try lia.
  - split; [assumption|auto].
  - exfalso. match goal with K : forall y, In y _ -> onward _ _ y -> ~ usable _ y |- _ => exact (K y Hy Oy Uy) end.
Qed.
Lemma shared_max a k : wf_key a -> (shared a k <= 64)%nat.
Proof. intros H. unfold shared. pose proof (common_prefix_le (np_dhkey_str a) (np_dhkey_str k)) as L. rewrite str_length in L by exact H. exact L. Qed.
Theorem C53_progress : forall k count a p, wf_key k -> wf_key a -> 1 <= count -> path k count a p ->
  (length p <= 64)%nat /\ NoDup (a :: p).
Proof.
  intros k count a p Hk Ha Hc P.
  assert (K : (shared a k + length p <= 64)%nat /\ NoDup (a :: p) /\ forall b, In b p -> (shared a k < shared b k)%nat).
  { induction P as [a|a b p N H P IH].
    - split; [pose proof (shared_max a k Ha); cbn; lia|]. split; [constructor; [intros []|constructor]|intros b []].
    - destruct (hop_progress k count a b Hk N Hc H) as [L Hb]. destruct (IH Hb) as (A & B & C).
      assert (C' : forall c, In c (b :: p) -> (shared a k < shared c k)%nat) by (intros c [<-|Hx]; [exact L|specialize (C c Hx); lia]).
      split; [cbn; lia|]. split; [|exact C']. constructor; [|exact B]. intros I. apply C' in I. lia. }
  split; [lia|apply K].
Qed.
(** The own id may only be looked up where the leafset answers; everything else is an assertion failure. *)
Theorem C53_own_id : forall me size ns es r count lat suc, history me size ns es r ->
  np_route_lookup r me count lat suc = Abort \/ count = 1 /\ covered me (left r) (right r) me.
Proof.
  intros me size ns es r count lat suc H. destruct (history_all _ _ _ _ _ H) as (A & M & _). destruct A as ((Hm & _) & (_ & _ & HL & HR & El & Er & _) & _).
  rewrite M in *. unfold np_route_lookup. destruct ((count =? 1) && np_dhkey_between me (lrange r) (rrange r) true) eqn:B.
  - right. apply andb_prop in B. destruct B as [B1 B2]. split; [lia|]. rewrite El, Er in B2. rewrite between_spec in B2.
    + unfold covered. tauto.
    + exact Hm.
    + apply farthest_wf; [exact Hm|eapply half_wf; exact HL].
    + apply farthest_wf; [exact Hm|eapply half_wf; exact HR].
  - left. rewrite M. unfold first_slot. rewrite index_spec by exact Hm.
    assert (common_prefix (np_dhkey_str me) (np_dhkey_str me) = 64%nat) as ->.
    { transitivity (length (np_dhkey_str me)); [apply common_prefix_full; reflexivity|apply str_length; exact Hm]. }
    reflexivity.
Qed.
(** The nodes told to a joining node: known nodes of its row, not itself, and no two with the same next digit. *)
Theorem C53_row : forall me size ns es r k, history me size ns es r -> wf_key k -> k <> me ->
  exists l, np_route_row_lookup r k = Ok l /\ incl l (np_route_get_table r) /\
    Forall (fun x => shared me (fst x) = shared me k /\ fst x <> k) l /\ NoDup (map (fun x => digit (fst x) (shared me k)) l).
Proof.
  intros me size ns es r k H Hk N. destruct (history_all _ _ _ _ _ H) as (((Hm & P & _) & _) & M & _). rewrite M in *.
  pose proof (shared_lt me k Hm Hk (fun C => N (eq_sym C))) as L. unfold np_route_row_lookup. rewrite M, index_spec by auto. fold (shared me k).
  replace (Z.of_nat (shared me k) <? MAX_ROW) with true by (unfold MAX_ROW; lia). eexists. split; [reflexivity|].
  clear M. set (f := fun j => some_list (table r (slot (Z.of_nat (shared me k)) j 0))).
  assert (IN : forall l x, (forall j, In j l -> 0 <= j < 16) -> In x (flat_map f l) -> In x (np_route_get_table r) /\ shared me (fst x) = shared me k /\ wf_key (fst x) /\
     exists j, In j l /\ digit (fst x) (shared me k) = hexdigit j).
  { intros l x Hl Hx. apply in_flat_map in Hx. destruct Hx as (j & Hj & Hx). unfold f in Hx. destruct (table r (slot (Z.of_nat (shared me k)) j 0)) as [y|] eqn:E; [|destruct Hx].
    destruct Hx as [->|[]]. specialize (Hl j Hj). destruct (P _ _ E) as (W & _ & j' & e & Es & Rj & Re & D). apply slot_inj in Es; [|lia..].
    assert (Sh : shared me (fst x) = shared me k) by lia. split.
    - rewrite get_table_tbl. apply tbl_in. exists (slot (Z.of_nat (shared me k)) j 0). split; [apply slot_range; lia|exact E].
    - split; [exact Sh|]. split; [exact W|]. exists j. split; [exact Hj|]. rewrite <- Sh, D. f_equal. lia. }
  assert (R : forall j, In j (upto MAX_COL) -> 0 <= j < 16) by (intros j Hj; apply upto_in in Hj; exact Hj).
  split; [|split].
  - intros x Hx. apply filter_In in Hx. apply (IN _ _ R (proj1 Hx)).
  - apply Forall_forall. intros x Hx. apply filter_In in Hx. destruct Hx as [Hx E]. destruct (IN _ _ R Hx) as (_ & Sh & W & _). split; [exact Sh|].
    intros C. rewrite C in E. rewrite equal_refl_key in E. discriminate.
  - assert (ND : NoDup (map (fun x : node => digit (fst x) (shared me k)) (flat_map f (upto MAX_COL)))).
    { pose proof (upto_nodup MAX_COL) as D. revert D R. induction (upto MAX_COL) as [|j l IH]; intros D R; [constructor|]. inversion D as [|? ? Nj Dl]; subst. cbn [flat_map].
      rewrite map_app. assert (Rl : forall j', In j' l -> 0 <= j' < 16) by (intros j' Hj; apply R; right; exact Hj). specialize (IH Dl Rl).
      unfold f at 1. destruct (table r (slot (Z.of_nat (shared me k)) j 0)) as [y|] eqn:E; [|exact IH]. cbn [some_list map app]. constructor; [|exact IH].
      intros C. apply in_map_iff in C. destruct C as (x & Ex & Hx). destruct (IN l x Rl Hx) as (_ & _ & _ & j' & Hj' & Dj').
      destruct (IN [j] y) as (_ & _ & _ & j2 & [<-|[]] & D2); [intros j2 [<-|[]]; apply R; left; reflexivity|cbn; unfold f; rewrite E; left; reflexivity|].
      rewrite Ex, D2 in Dj'. apply hexdigit_inj in Dj'; [|apply R; left; reflexivity|auto]. subst j'. contradiction. }
    clear - ND. induction (flat_map f (upto MAX_COL)) as [|x l IH]; [constructor|]. cbn in ND |- *. inversion ND as [|? ? Nx Dl]; subst.
    destruct (negb (np_dhkey_equal (fst x) k)); [|auto]. cbn. constructor; [|auto]. intros C. apply Nx. apply in_map_iff in C. destruct C as (y & Ey & Hy).
    rewrite <- Ey. apply in_map_iff. exists y. split; [reflexivity|]. apply filter_In in Hy. apply Hy.
Qed.

(** *** Examples *)
(** All links are good, and equally fast, but for the third node *)
Definition reliable (o : Z) : Z := one.
Lemma history_ex size es : (forall e, In e es -> In (event_node e) some_nodes) -> exists r, history me0 size some_nodes es r.
Proof.
  intros HN. destruct (C26_total me0 size some_nodes es me0_wf some_proper HN) as (r & E). exists r. exact (conj me0_wf (conj some_proper (conj HN E))).
Qed.
Definition joins : list event := [Update nA true slow3; Update nB true slow3; Update nC true slow3; Update nE true slow3].
Lemma joins_nodes e : In e joins -> In (event_node e) some_nodes.
Proof. intros He. cbn in He. repeat (destruct He as [<-|He]; [cbn; auto 10|]); destruct He. Qed.
(** The way to an id that begins like A, B and C leads to one of them; the way to another id to a node of the row above *)
Example C53_ex : exists r, history me0 7 some_nodes joins r /\
  np_route_lookup r (rk 0x14000000 7) 2 slow3 reliable = Ok [nA] /\ np_route_lookup r (rk 0x14000000 7) 2 (fun o => if o =? 2 then 0 else 5) reliable = Ok [nB] /\
  np_route_lookup r (rk 0x20000000 7) 2 slow3 reliable = Ok [nC] /\ np_route_row_lookup r (rk 0x20000000 7) = Ok [nA] /\
  prefix_hop (rk 0x14000000 7) 2 me0 (fst nA).
Proof.
  destruct (history_ex 7 joins joins_nodes) as (r & H). exists r. pose proof H as (_ & _ & _ & E). split; [exact H|].
  assert (K : match run_events (np_route_init me0 7) joins with Ok r =>
    np_route_lookup r (rk 0x14000000 7) 2 slow3 reliable = Ok [nA] /\ np_route_lookup r (rk 0x14000000 7) 2 (fun o => if o =? 2 then 0 else 5) reliable = Ok [nB] /\
    np_route_lookup r (rk 0x20000000 7) 2 slow3 reliable = Ok [nC] /\ np_route_row_lookup r (rk 0x20000000 7) = Ok [nA] /\ np_route_get_table r = [nE; nA; nB; nC] | _ => False end)
    by (vm_compute; auto 10). rewrite E in K. destruct K as (K1 & K2 & K3 & K4 & K5). repeat (split; [assumption|]).
  exists 7, joins, some_nodes, r, slow3, reliable, nA, nA. split; [exact me0_wf|]. split; [exact some_proper|]. split; [exact joins_nodes|]. split; [exact E|].
  split; [exact K1|]. split; [reflexivity|]. split; [rewrite K5; right; left; reflexivity|]. split; [unfold usable; vm_compute; reflexivity|].
  split; [unfold onward; vm_compute; lia|]. intros [C _]. discriminate.
Qed.
(** FINDING: a node with an empty leafset finds no hop with count 1, although its table has one (callers try again with
    larger counts). *)
Theorem C53_empty_leafset_refuted : exists r, history me0 7 some_nodes joins r /\ np_route_get_table r <> [] /\
  forall k, wf_key k -> np_route_lookup r k 1 quick reliable = Ok [].
Proof.
  destruct (history_ex 7 joins joins_nodes) as (r & H). exists r. pose proof H as (_ & _ & _ & E). split; [exact H|].
  assert (K : match run_events (np_route_init me0 7) joins with Ok r => np_route_get_table r = [nE; nA; nB; nC] /\ left r = [] /\ right r = [] /\ lrange r = me0 /\ rrange r = me0 | _ => False end)
    by (vm_compute; auto 10). rewrite E in K. destruct K as (K1 & K2 & K3 & K4 & K5). split; [rewrite K1; discriminate|].
  intros k Hk. unfold np_route_lookup. rewrite K2, K3, K4, K5. assert (np_dhkey_between k me0 me0 true = true) as ->; [|reflexivity].
  apply between_spec; [exact Hk|exact me0_wf|exact me0_wf|]. destruct (list_eq_dec Z.eq_dec k me0) as [->|Nk]; [left; auto|]. right. split; [exact Nk|]. split; [exact Nk|].
  unfold inside_arc. rewrite Z.eqb_refl. destruct Hk as [Lk Fk]. pose proof (kval_range k Fk) as Rk. rewrite Lk in Rk. change (4294967296 ^ Z.of_nat 8) with ring in Rk.
  replace (kval me0) with 0 by (vm_compute; reflexivity). rewrite Z.sub_0_r, Z.mod_small by lia.
  assert (kval k <> 0); [|lia]. intros C. apply Nk. apply kval_inj; [rewrite Lk; reflexivity|exact Fk|apply me0_wf|]. rewrite C. vm_compute. reflexivity.
Qed.
(** FINDING: a link that is almost always down is chosen when its latency is small enough: node 2 answers no ping. *)
Theorem C53_bad_link_refuted : exists r, history me0 7 some_nodes joins r /\ exists lat suc, suc (snd nB) = 0 /\ usable suc nA /\
  np_route_lookup r (rk 0x14000000 7) 2 lat suc = Ok [nB].
Proof.
  destruct (history_ex 7 joins joins_nodes) as (r & H). exists r. pose proof H as (_ & _ & _ & E). split; [exact H|].
  exists (fun o => if o =? 2 then 0 else 2 * one), (fun o => if o =? 2 then 0 else one). split; [reflexivity|]. split; [unfold usable; vm_compute; reflexivity|].
  assert (K : match run_events (np_route_init me0 7) joins with Ok r => np_route_lookup r (rk 0x14000000 7) 2 (fun o => if o =? 2 then 0 else 2 * one) (fun o => if o =? 2 then 0 else one) = Ok [nB] | _ => False end)
    by (vm_compute; reflexivity). rewrite E in K. exact K.
Qed.
(** FINDING: without such a node the search goes back to a row above, and two nodes can send a message to each other for
    ever. *)
Definition left_node : node := (rk 0x10 0, 1).
Definition right_node : node := (rk 0x20 0, 2).
Theorem C53_bounce_refuted : exists r1 r2 k, wf_key k /\
  history (fst left_node) 7 [left_node; right_node] [Update right_node true quick] r1 /\ history (fst right_node) 7 [left_node; right_node] [Update left_node true quick] r2 /\
  np_route_lookup r1 k 2 quick reliable = Ok [right_node] /\ np_route_lookup r2 k 2 quick reliable = Ok [left_node].
Proof.
  assert (PR : proper [left_node; right_node]).
  { split; [repeat constructor; cbn; lia|]. intros a b Ha Hb. cbn in Ha, Hb. destruct Ha as [<-|[<-|[]]], Hb as [<-|[<-|[]]]; cbn; split; intros; try reflexivity; try discriminate. }
  assert (W1 : wf_key (fst left_node)) by (repeat constructor; cbn; lia). assert (W2 : wf_key (fst right_node)) by (repeat constructor; cbn; lia).
  assert (H1 : forall e, In e [Update right_node true quick] -> In (event_node e) [left_node; right_node]) by (intros e [<-|[]]; cbn; auto).
  assert (H2 : forall e, In e [Update left_node true quick] -> In (event_node e) [left_node; right_node]) by (intros e [<-|[]]; cbn; auto).
  destruct (C26_total _ 7 _ _ W1 PR H1) as (r1 & E1). destruct (C26_total _ 7 _ _ W2 PR H2) as (r2 & E2). exists r1, r2, (rk 0x30 0).
  split; [repeat constructor; cbn; lia|]. split; [exact (conj W1 (conj PR (conj H1 E1)))|]. split; [exact (conj W2 (conj PR (conj H2 E2)))|].
  assert (K1 : match run_events (np_route_init (fst left_node) 7) [Update right_node true quick] with Ok r => np_route_lookup r (rk 0x30 0) 2 quick reliable = Ok [right_node] | _ => False end) by (vm_compute; reflexivity).
  assert (K2 : match run_events (np_route_init (fst right_node) 7) [Update left_node true quick] with Ok r => np_route_lookup r (rk 0x30 0) 2 quick reliable = Ok [left_node] | _ => False end) by (vm_compute; reflexivity).
  rewrite E1 in K1. rewrite E2 in K2. auto.
Qed.

Print Assumptions C26_total.
Print Assumptions C26_places.
Print Assumptions C26_update.
Print Assumptions C26_life_total.
Print Assumptions C26_once.
Print Assumptions C26_leave.
Print Assumptions C26_all_schedules.
Print Assumptions C26_leave_all_schedules.
Print Assumptions C26_schedules_total.
Print Assumptions C26_flag_race_refuted.
Print Assumptions C26_once_refuted.
Print Assumptions C27_leafset.
Print Assumptions C27_update.
Print Assumptions C27_flags.
Print Assumptions C27_neighbors.
Print Assumptions C27_closest_refuted.
Print Assumptions C53_lookup.
Print Assumptions C53_neighbour.
Print Assumptions C53_progress.
Print Assumptions C53_own_id.
Print Assumptions C53_row.
Print Assumptions C53_empty_leafset_refuted.
Print Assumptions C53_bad_link_refuted.
Print Assumptions C53_bounce_refuted.
