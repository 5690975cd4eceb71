(** C117, C118: messages that tell who wants or offers a subject *)
From Coq Require Import Permutation.
From Verif Require Import Base Out_Props Dhkey_Model Dhkey_Proofs Keycache_Model Keycache_Props Route_Model Route_Spec Route_Proofs Route_Hist Route_Props Bloom_Model Bloom_Spec Pheromone_Model Pheromone_Spec Pheromone_Filter Pheromone_Hist Pheromone_Props Data_Model Out_Model Out_Spec Scent_Model Scent_Spec Scent_Proofs.
Open Scope Z_scope.

(** * C117 *)
(** the longest life of a message: 2^32 seconds *)
Lemma rounds_most t now k : - (2 ^ 32 * second) <= t - now - tiny -> rounds t now k -> k <= 430000000000.
Proof. unfold rounds. intros T [_ U]. pose proof tiny_pos. pose proof second_tiny. destruct big_tiny as (_ & _ & B). rewrite B in U. lia. Qed.
Lemma clock_in now : clock now -> second <= now <= 2 ^ 33 * second.
Proof. unfold clock. destruct big_tiny as (B1 & _ & B3). rewrite B1, B3. lia. Qed.
Lemma few_rounds t ttl now fuel : 0 <= ttl < 2 ^ 32 -> clock now -> part_expired (Fin t) ttl now = false -> 430000000000 <= Z.of_nat fuel ->
  exists k, rounds t now (Z.of_nat k) /\ forall b, decay fuel (Fin t) now b = lift (fade k b).
Proof.
  intros T C E F. apply clock_in in C. pose proof (unexpired _ _ _ T C E) as U. pose proof tiny_pos. pose proof second_tiny. assert (TS : ttl * second <= (2 ^ 32 - 1) * second) by nia.
  destruct (decay_any now t) as (k & R & HD); [lia|lia|]. exists k. split; [exact R|]. intros b. apply HD. pose proof (rounds_most t now (Z.of_nat k) ltac:(lia) R). lia.
Qed.
(** Whatever time stamp, life and content a neighbour puts into the message: the node gets done with it, after at most 430 000 000 000 rounds of the
    loop for each entry. *)
Theorem C117_ends_partial : forall tstamp ttl now fuel me audience prev tb l, 0 <= ttl < 2 ^ 32 -> clock now -> part_expired tstamp ttl now = false ->
  430000000000 <= Z.of_nat fuel -> in_update fuel me audience prev tstamp now tb l <> Hangs.
Proof.
  intros tstamp ttl now fuel me audience prev tb l T C E F. unfold in_update.
  assert (D : forall b, decay fuel tstamp now b <> Hangs).
  { intros b. destruct tstamp as [t| | |].
    - destruct (few_rounds t ttl now fuel T C E F) as (k & _ & H). apply (decay_never _ _ _ _ k H).
    - destruct fuel; discriminate.
    - discriminate E.
    - destruct fuel; discriminate. }
  pose proof (sniff_ends fuel audience prev tstamp now D l tb) as S. destruct (sniff _ _ _ _ _ _ _) as [[[] ]| | |]; cbn [rbind]; congruence.
Qed.
(** An update that is 0.16 seconds old changes nothing and does not go on. *)
Theorem C117_old : forall t ttl now fuel me audience prev tb s r b, 0 <= ttl < 2 ^ 32 -> clock now -> part_expired (Fin t) ttl now = false ->
  430000000000 <= Z.of_nat fuel -> wf_key s -> regular s -> nbf_add nbf_create s = Ok b -> 16 * 2 ^ 1074 <= 100 * (now - t) ->
  in_update fuel me audience prev (Fin t) now tb [(position s r, b)] = Done (tb, []).
Proof.
  intros t ttl now fuel me audience prev tb s r b T C E F W R Eb Old. destruct (few_rounds t ttl now fuel T C E F) as (k & Rk & D).
  destruct (one_scent fuel me audience prev (Fin t) now tb s r b k W R Eb (D b)) as (p & _ & ->).
  rewrite strength_eq. pose proof tiny_pos. pose proof second_tiny. destruct big_tiny as (_ & _ & B). unfold rounds in Rk. rewrite B in *.
  assert (16 <= Z.of_nat k) by nia. replace (Z.max 0 (128 - 8 * Z.of_nat k) =? 0) with true by lia. reflexivity.
Qed.
(** A body of several entries: the node takes them in one after the other, and the update goes on to all to whom one of its pieces would go. *)
Lemma sniff_app fuel audience prev t now : forall l1 l2 tb tb1 ks1 u1 tb2 ks2 u2, sniff fuel audience prev t now tb l1 = Done (tb1, ks1, u1) -> sniff fuel audience prev t now tb1 l2 = Done (tb2, ks2, u2) ->
  sniff fuel audience prev t now tb (l1 ++ l2) = Done (tb2, ks1 ++ ks2, u1 || u2).
Proof.
  induction l1 as [|[i b] l1 IH]; intros l2 tb tb1 ks1 u1 tb2 ks2 u2 E1 E2; cbn [app sniff] in *; [injection E1 as <- <- <-; exact E2|].
  destruct (decay fuel t now b) as [p| | |]; cbn [rbind] in *; try discriminate. destruct (lift (nbf_intersect_age p p)) as [g| | |]; cbn [rbind] in *; try discriminate.
  destruct (g =? 0); [exact (IH _ _ _ _ _ _ _ _ E1 E2)|].
  match type of E1 with rbind ?x _ = _ => destruct x as [[ks sc]| | |]; cbn [rbind] in *; try discriminate end.
  destruct (lift (inhale tb sc now)) as [[tb' u]| | |]; cbn [rbind] in *; try discriminate.
  destruct (sniff fuel audience prev t now tb' l1) as [[[tbx ksx] ux]| | |] eqn:Ex; cbn [rbind] in *; try discriminate. injection E1 as <- <- <-.
  rewrite (IH _ _ _ _ _ _ _ _ Ex E2). cbn [rbind]. rewrite app_assoc, orb_assoc. reflexivity.
Qed.
Theorem C117_several : forall fuel me audience prev t now tb l1 tb1 o1 l2 tb2 o2,
  in_update fuel me audience prev t now tb l1 = Done (tb1, o1) -> in_update fuel me audience prev t now tb1 l2 = Done (tb2, o2) ->
  exists o, in_update fuel me audience prev t now tb (l1 ++ l2) = Done (tb2, o) /\ incl o1 o /\ incl o2 o /\ (o = [] <-> o1 = [] /\ o2 = []).
Proof.
  intros fuel me audience prev t now tb l1 tb1 o1 l2 tb2 o2. unfold in_update.
  destruct (sniff fuel audience prev t now tb l1) as [[[tbx ks1] u1]| | |] eqn:E1; cbn [rbind]; try discriminate. intros [= <- <-].
  destruct (sniff fuel audience prev t now tbx l2) as [[[tby ks2] u2]| | |] eqn:E2; cbn [rbind]; try discriminate. intros [= <- <-].
  rewrite (sniff_app _ _ _ _ _ _ _ _ _ _ _ _ _ _ E1 E2). cbn [rbind]. eexists. split; [reflexivity|]. rewrite filter_app.
  split; [|split]; [| |destruct u1, u2; cbn [orb]; split; [discriminate|intros [A B]; discriminate|discriminate|intros [A B]; discriminate|discriminate|intros [A B]; discriminate|auto|auto]].
  - destruct u1; cbn [orb]; [|intros x []]. intros x [->|H]; [left; reflexivity|right; apply in_or_app; left; exact H].
  - destruct u2; [rewrite orb_true_r|intros x []]. intros x [->|H]; [left; reflexivity|right; apply in_or_app; right; exact H].
Qed.
(** The claim that the time the node works on a message is not up to its sender fails: whatever the time (a whole number of seconds), there is a
    message that is not expired and takes more than 425 000 000 000 rounds, and all but 16 of them change nothing. *)
Theorem C117_full_refuted : forall n fuel me audience prev tb s r b, 1 <= n <= 2 ^ 33 -> Z.of_nat fuel <= 425000000000 -> wf_key s -> regular s -> nbf_add nbf_create s = Ok b ->
  let now := n * 2 ^ 1074 in let ttl := 2 ^ 32 - 1 in let tstamp := (n - ttl) * 2 ^ 1074 in
  part_expired (Fin tstamp) ttl now = false /\ in_update fuel me audience prev (Fin tstamp) now tb [(position s r, b)] = Hangs.
Proof.
  intros n fuel me audience prev tb s r b Hn F W R Eb now ttl tstamp. destruct big_tiny as (B1 & B2 & B3). pose proof tiny_pos. pose proof second_tiny as ST.
  assert (En : now = n * second) by (unfold now; rewrite B3; reflexivity). assert (Et : tstamp = (n - ttl) * second) by (unfold tstamp; rewrite B3; reflexivity). clearbody now tstamp. split.
  - unfold part_expired. cbn [dadd below]. replace (tstamp + ttl * second) with (n * second) by (rewrite Et; ring). rewrite whole by lia. lia.
  - destruct (decay_any now tstamp) as (k & Rk & D); [lia|unfold ttl in *; lia|].
    assert (K : (fuel < k)%nat). { unfold rounds in Rk. rewrite B3, En, Et in Rk. unfold ttl in Rk. nia. }
    unfold in_update. cbn [sniff]. destruct (ent_new s W R) as (b0 & E0 & En0). rewrite Eb in E0. injection E0 as <-. destruct (fade_ok s fuel 128 b En0) as (p & Ep & _).
    rewrite (proj2 (D fuel b) K) by eauto. reflexivity.
Qed.

(** * C118 *)
(** A fresh update (at most 0.14 seconds old) about a subject: whatever was smelled before, the neighbour it came from is known afterwards, and it goes on
    towards the audience and to all neighbours on an at least as strong trail to the audience, but not to the neighbour it came from or to the node itself. *)
Theorem C118_learned_partial : forall t ttl now fuel me audience prev h tb s r b, 0 <= ttl < 2 ^ 32 -> clock now -> part_expired (Fin t) ttl now = false ->
  430000000000 <= Z.of_nat fuel -> nbf_add nbf_create s = Ok b -> 100 * (now - t) <= 14 * 2 ^ 1074 ->
  good me (h ++ [Smell s prev r 0 now]) -> Pheromone_Spec.run (new_table me) h = Ok tb -> held tb = false ->
  (forall b, buckets tb (bucket_of s) = Some b -> (length (ents b) <= 30)%nat /\ kept_in b <= 254) -> wf_key audience -> regular audience ->
  exists tb' targets a ks pr, in_update fuel me audience prev (Fin t) now tb [(position s r, b)] = Done (tb', targets) /\
    8 <= a <= 128 /\ (if r then snuffle_sender tb audience a else snuffle_receiver tb audience a) = Ok (ks, pr) /\
    (forall k, In k targets <-> k = audience \/ (In k ks /\ k <> prev /\ k <> me)) /\
    exists ks' pr', trail tb' s r = Ok (ks', pr') /\ In prev ks' /\ a <= pr'.
Proof.
  intros t ttl now fuel me audience prev h tb s r b T C E F Eb New G Er H Rm Wa Ra. destruct (few_rounds t ttl now fuel T C E F) as (k & Rk & D).
  pose proof tiny_pos. pose proof second_tiny. destruct big_tiny as (_ & _ & B). unfold rounds in Rk. rewrite B in *.
  assert (K : Z.of_nat k <= 15) by nia.
  assert (G' : good me (h ++ [Smell s prev r k now])).
  { destruct G as [G1 G2 G3 G4 G5 G6]. unfold subjects, sources, times in *. rewrite !flat_map_app in *. cbn [flat_map app] in *. split; auto; try (unfold subjects, sources, times; rewrite !flat_map_app; cbn [flat_map app]; assumption).
    rewrite Forall_app in *. split; [apply G6|constructor; [exact Logic.I|constructor]]. }
  destruct (C29_found me h (Smell s prev r k now) s prev r k tb G') as (tb' & Es & Tr); auto. { left. exists now. reflexivity. }
  assert (WR : (wf_key s /\ regular s) /\ (wf_key prev /\ prev <> repeat 0 8)).
  { destruct G as [_ G2 G3 _ _ _]. unfold subjects, sources in *. rewrite flat_map_app in *. rewrite Forall_app in *. destruct G2 as [_ G2], G3 as [_ G3]. inversion G2; inversion G3; auto. }
  destruct WR as [[Ws Rs] [Wp _]]. destruct (one_scent fuel me audience prev (Fin t) now tb s r b k Ws Rs Eb (D b)) as (p & _ & ->).
  assert (Ek : strength k = 128 - 8 * Z.of_nat k) by (rewrite strength_eq; lia). replace (strength k =? 0) with false by lia.
  assert (Gh : good me h) by (apply (good_prefix _ _ _ G)).
  destruct (C29_sound me h tb audience (negb r) (strength k) Gh Er H Wa Ra) as (ks & pr & Ea & Sm).
  assert (Ea' : (if r then snuffle_sender tb audience (strength k) else snuffle_receiver tb audience (strength k)) = Ok (ks, pr)) by (destruct r; exact Ea).
  rewrite Ea', Es. cbn [lift rbind]. eexists _, _, (strength k), ks, pr. split; [reflexivity|]. split; [lia|]. split; [exact Ea'|]. split.
  - assert (Wk : forall x, In x ks -> wf_key x).
    { intros x Hx. destruct (Sm x Hx) as (s' & _ & k' & now' & Hs). destruct Gh as [_ _ G3 _ _ _]. rewrite Forall_forall in G3. apply G3. unfold sources. apply in_flat_map.
      destruct Hs as [Hs|Hs]; (eexists; split; [exact Hs|left; reflexivity]). }
    pose proof (g_me _ _ G) as Wm. intros x. cbn [In]. rewrite filter_In. split.
    + intros [->|[Hx Q]]; [left; reflexivity|]. apply andb_prop in Q. destruct Q as [Q1 Q2]. right. specialize (Wk x Hx). split; [exact Hx|].
      split; intros ->; [rewrite (proj2 (equal_spec prev prev Wp Wp) eq_refl) in Q1|rewrite (proj2 (equal_spec me me Wm Wm) eq_refl) in Q2]; discriminate.
    + intros [->|(Hx & N1 & N2)]; [left; reflexivity|]. right. split; [exact Hx|]. specialize (Wk x Hx). apply andb_true_intro. split; apply negb_true_iff, not_true_is_false; intros Q; apply equal_spec in Q; auto.
  - destruct (Tr 0 ltac:(lia)) as (ks' & pr' & Et & Hin & _ & Hpr). exists ks', pr'. unfold trail. split; [destruct r; exact Et|]. split; [exact Hin|lia].
Qed.

(** ** where it goes *)
Lemma table_facts me size ns es r : history me size ns es r -> (forall x : node, In x (np_route_get_table r) -> wf_key (fst x) /\ fst x <> me) /\ np_get_route_count r = Z.of_nat (length (np_route_get_table r)).
Proof.
  intros H. destruct (C26_places _ _ _ _ _ H) as (P & Cn & _). split; [|exact Cn]. intros x Hx. split.
  - destruct (history_all _ _ _ _ _ H) as ((_ & _ & (W & _) & _) & _). destruct H as (_ & (F & _) & _). rewrite Forall_forall in F. apply F, W, Hx.
  - rewrite get_table_tbl in Hx. apply tbl_in in Hx. destruct Hx as (sl & _ & Es). apply (P sl x Es).
Qed.
Lemma best_match me size ns es r target : history me size ns es r -> wf_key target -> np_route_get_table r <> [] ->
  exists x l, sort_keys_cpm fst (np_route_get_table r) target = x :: l /\ In x (np_route_get_table r) /\ forall y, In y (np_route_get_table r) -> longer_or_closer target x y.
Proof.
  intros H W N. destruct (table_facts _ _ _ _ _ H) as (F & _).
  destruct (C28_sort_by_prefix node fst (np_route_get_table r) target W) as (P & S). { apply Forall_forall. intros x Hx. apply F, Hx. }
  destruct (sort_keys_cpm fst (np_route_get_table r) target) as [|x l]; [apply Permutation_sym, Permutation_nil in P; congruence|].
  exists x, l. split; [reflexivity|]. split; [eapply Permutation_in; [apply Permutation_sym; exact P|left; reflexivity]|].
  intros y Hy. apply (Permutation_in _ P) in Hy. unfold longer_or_closer. destruct Hy as [->|Hy]; [right; split; [reflexivity|lia]|]. inversion S as [|? ? _ Fa]; subst. rewrite Forall_forall in Fa. apply Fa, Hy.
Qed.
Lemma sends_one w m target h : h <> w_me w -> wf_key h -> wf_key (w_me w) -> w_cache w h <> None -> (1 <= w_room w)%nat -> send_chunks w m target [h] = (true, [mkCopy h target m]).
Proof.
  intros N W Wm Ca R. unfold send_chunks, exists_key. cbn [filter]. replace (np_dhkey_equal h (w_me w)) with false by (symmetry; apply not_true_is_false; intros Q; apply equal_spec in Q; auto).
  destruct (w_cache w h); [|congruence]. cbn [negb andb map]. destruct (w_room w); [lia|]. cbn [firstn]. rewrite firstn_nil. reflexivity.
Qed.
Lemma sends_two w m target h h' : h <> w_me w -> h' <> w_me w -> wf_key h -> wf_key h' -> wf_key (w_me w) -> w_cache w h <> None -> w_cache w h' <> None -> (2 <= w_room w)%nat ->
  send_chunks w m target [h; h'] = (true, [mkCopy h target m; mkCopy h' target m]).
Proof.
  intros N N' W W' Wm Ca Ca' R. unfold send_chunks, exists_key. cbn [filter].
  replace (np_dhkey_equal h (w_me w)) with false by (symmetry; apply not_true_is_false; intros Q; apply equal_spec in Q; auto).
  replace (np_dhkey_equal h' (w_me w)) with false by (symmetry; apply not_true_is_false; intros Q; apply equal_spec in Q; auto).
  destruct (w_cache w h); [|congruence]. destruct (w_cache w h'); [|congruence]. cbn [negb andb map]. destruct (w_room w) as [|[|n]]; [lia|lia|]. cbn [firstn]. rewrite firstn_nil. reflexivity.
Qed.
Lemma connected me size ns es r : history me size ns es r -> np_route_get_table r <> [] -> np_route_has_connection r = true /\ np_get_route_count r >? 0 = true.
Proof.
  intros H N. destruct (table_facts _ _ _ _ _ H) as (_ & Cn). unfold np_route_has_connection. rewrite Cn. destruct (np_route_get_table r); [congruence|]. cbn [length].
  assert (0 <= np_route_count_neighbors r) by (unfold np_route_count_neighbors, u16; pose proof (Z.mod_pos_bound (left_count r + right_count r) 65536); lia). lia.
Qed.
(** Towards the audience goes one copy, to a neighbour in the routing table: the next hop of prefix routing, or when there is none, the neighbour
    with the longest common prefix. *)
Theorem C118_towards : forall me size ns es r lat suc w m bucket tb, history me size ns es r -> wf_key (m_audience m) -> m_audience m <> me -> np_route_get_table r <> [] ->
  w_me w = me -> (forall x, In x (np_route_get_table r) -> w_cache w (fst x) <> None) -> (1 <= w_room w)%nat -> exhale (w_table w) bucket = Ok tb ->
  exists x, In x (np_route_get_table r) /\ out_pheromone w r lat suc (m_audience m) m bucket = Done (true, [mkCopy (fst x) (m_audience m) m], tb) /\
    (next_hop me (m_audience m) 2 lat suc (np_route_get_table r) (left r) (right r) [x] \/
     next_hop me (m_audience m) 2 lat suc (np_route_get_table r) (left r) (right r) [] /\ forall y, In y (np_route_get_table r) -> longer_or_closer (m_audience m) x y).
Proof.
  intros me size ns es r lat suc w m bucket tb H W N T Em Ca R Ex. destruct (connected _ _ _ _ _ H T) as (C1 & C2). destruct (table_facts _ _ _ _ _ H) as (F & _). pose proof (proj1 H) as Wm.
  destruct (C53_lookup me size ns es r (m_audience m) 2 lat suc H W N ltac:(lia)) as (l & El & NH).
  assert (X : l = [] \/ exists x, l = [x] /\ In x (np_route_get_table r)) by (inversion NH; subst; try lia; eauto).
  assert (Q : np_dhkey_equal (m_audience m) (m_audience m) = true) by (apply equal_spec; auto).
  destruct X as [->|(x & -> & Hx)].
  - destruct (best_match me size ns es r (m_audience m) H W T) as (x & l' & Es & Hx & Bx). exists x. split; [exact Hx|]. split; [|right; split; [exact NH|exact Bx]].
    unfold out_pheromone. rewrite C1. cbn [negb]. rewrite Q, El. cbn [lift rbind firstn map]. rewrite C2, Es. cbn [rbind app]. destruct (F x Hx) as [Wx Nx].
    rewrite sends_one by (rewrite ?Em; auto). rewrite Ex. reflexivity.
  - exists x. split; [exact Hx|]. split; [|left; exact NH].
    unfold out_pheromone. rewrite C1. cbn [negb]. rewrite Q, El. cbn [lift rbind firstn map]. destruct (F x Hx) as [Wx Nx].
    rewrite sends_one by (rewrite ?Em; auto). rewrite Ex. reflexivity.
Qed.
(** The claim of one copy for each neighbour on a trail fails: the update for such a neighbour always leaves twice, also to the neighbour of the routing
    table with the longest common prefix with it, which is the same neighbour when it is in the routing table. *)
Theorem C118_twice_refuted : forall me size ns es r lat suc w m target bucket tb, history me size ns es r -> wf_key (m_audience m) -> wf_key target ->
  m_audience m <> target -> target <> me -> np_route_get_table r <> [] -> w_me w = me -> w_cache w target <> None ->
  (forall x, In x (np_route_get_table r) -> w_cache w (fst x) <> None) -> (2 <= w_room w)%nat -> exhale (w_table w) bucket = Ok tb ->
  exists x, In x (np_route_get_table r) /\ (forall y, In y (np_route_get_table r) -> longer_or_closer target x y) /\
    out_pheromone w r lat suc target m bucket = Done (true, [mkCopy target target m; mkCopy (fst x) target m], tb).
Proof.
  intros me size ns es r lat suc w m target bucket tb H Wa W Na N T Em Ct Ca R Ex. destruct (connected _ _ _ _ _ H T) as (C1 & C2). destruct (table_facts _ _ _ _ _ H) as (F & _). pose proof (proj1 H) as Wm.
  assert (Q : np_dhkey_equal (m_audience m) target = false) by (apply not_true_is_false; intros Q; apply equal_spec in Q; auto).
  destruct (best_match me size ns es r target H W T) as (x & l' & Es & Hx & Bx). exists x. split; [exact Hx|]. split; [exact Bx|].
  unfold out_pheromone. rewrite C1. cbn [negb]. rewrite Q. cbn [rbind]. rewrite C2, Es. cbn [rbind app]. destruct (F x Hx) as [Wx Nx].
  rewrite sends_two by (rewrite ?Em; auto). rewrite Ex. reflexivity.
Qed.
(** It fails also for the neighbour the update came from: when the routing table has no other entry, everything that goes on goes back to it. *)
Theorem C118_back_refuted : forall me size ns es r lat suc w m prev o target bucket tb, history me size ns es r -> wf_key (m_audience m) -> wf_key target -> target <> me ->
  np_route_get_table r = [(prev, o)] -> w_me w = me -> w_cache w target <> None -> w_cache w prev <> None -> (2 <= w_room w)%nat -> exhale (w_table w) bucket = Ok tb ->
  exists cs, out_pheromone w r lat suc target m bucket = Done (true, cs ++ [mkCopy prev target m], tb).
Proof.
  intros me size ns es r lat suc w m prev o target bucket tb H Wa W N T Em Ct Cp R Ex.
  destruct (np_dhkey_equal (m_audience m) target) eqn:Q.
  - apply equal_spec in Q; auto. subst target. destruct (C118_towards me size ns es r lat suc w m bucket tb H W N) as (x & Hx & E & _); auto; try (rewrite T; discriminate); try lia.
    + intros x Hx. rewrite T in Hx. destruct Hx as [<-|[]]. exact Cp.
    + rewrite T in Hx. destruct Hx as [<-|[]]. exists []. exact E.
  - assert (Na : m_audience m <> target) by (intros Qe; apply (equal_spec _ _ Wa W) in Qe; congruence).
    destruct (C118_twice_refuted me size ns es r lat suc w m target bucket tb H Wa W Na N) as (x & Hx & _ & E); auto; try (rewrite T; discriminate).
    + intros x Hx. rewrite T in Hx. destruct Hx as [<-|[]]. exact Cp.
    + rewrite T in Hx. destruct Hx as [<-|[]]. exists [mkCopy target target m]. exact E.
Qed.

(** * The hypotheses are met *)
Definition one_two : list call := [Smell (topic 1) (near 1) true 0 1; Smell (topic 1) (near 2) false 0 2; Smell (topic 2) (near 2) false 0 3].
Definition noon : Z := 1700000000 * 2 ^ 1074.
(** neighbour 3 tells that a receiver of topic 2 is behind it, a twentieth of a second ago; a sender of it is behind neighbour 2 *)
Example C118_case : match nbf_add nbf_create (topic 2) with
  | Ok b => match in_update 20 here (topic 2) (near 3) (Fin (dl (noon * 20 - 2 ^ 1074) 20)) noon (after one_two) [(position (topic 2) true, b)] with
    | Done (tb, ts) => same_keys ts [topic 2; near 2] && match trail tb (topic 2) true with Ok (ks, pr) => same_keys ks [near 3] && (80 <=? pr) | _ => false end
    | _ => false
    end
  | _ => false
  end = true.
Proof. vm_compute. reflexivity. Qed.
Example C118_good_case : good here (one_two ++ [Smell (topic 2) (near 3) true 0 noon]) /\ clock noon /\ part_expired (Fin (dl (noon * 20 - 2 ^ 1074) 20)) 20 noon = false /\
  100 * (noon - dl (noon * 20 - 2 ^ 1074) 20) <= 14 * 2 ^ 1074.
Proof.
  split; [apply good_b_ok; vm_compute; reflexivity|]. split; [split; vm_compute; discriminate|]. split; [vm_compute; reflexivity|vm_compute; discriminate].
Qed.
(** the same a second later *)
Example C117_case : match nbf_add nbf_create (topic 2) with
  | Ok b => match in_update 200 here (topic 2) (near 3) (Fin (noon - 2 ^ 1074)) noon (after one_two) [(position (topic 2) true, b)] with Done (tb, ts) => match ts with [] => true | _ => false end | _ => false end
  | _ => false
  end = true.
Proof. vm_compute. reflexivity. Qed.
(** a routing table with one entry, and the message for a neighbour on a trail *)
Example C118_route_case : exists r, history me0 7 some_nodes [Update nA true quick] r /\ np_route_get_table r = [nA] /\
  let w := mkW me0 (fun _ => Some (Node true)) true (new_table me0) 5 in
  out_pheromone w r quick quick (fst nB) (mkM (rk 3 3) (rk 4 4) false 0 []) 5 =
    Done (true, [mkCopy (fst nB) (fst nB) (mkM (rk 3 3) (rk 4 4) false 0 []); mkCopy (fst nA) (fst nB) (mkM (rk 3 3) (rk 4 4) false 0 [])], new_table me0).
Proof.
  assert (HN : forall e, In e [Update nA true quick] -> In (event_node e) some_nodes) by (intros e [<-|[]]; cbn; auto).
  destruct (C26_total me0 7 some_nodes _ me0_wf some_proper HN) as (r & E). exists r. assert (Hr : history me0 7 some_nodes [Update nA true quick] r) by exact (conj me0_wf (conj some_proper (conj HN E))). split; [exact Hr|].
  assert (T : np_route_get_table r = [nA]).
  { assert (K : match run_events (np_route_init me0 7) [Update nA true quick] with Ok r => np_route_get_table r = [nA] | _ => False end) by (vm_compute; reflexivity). rewrite E in K. exact K. }
  split; [exact T|]. intros w.
  destruct (C118_twice_refuted me0 7 some_nodes _ r quick quick w (mkM (rk 3 3) (rk 4 4) false 0 []) (fst nB) 5 (new_table me0) Hr) as (x & Hx & _ & Ex); try (apply wf_b_ok; reflexivity); try discriminate; auto; try (rewrite T; discriminate); try (cbn; lia).
  rewrite T in Hx. destruct Hx as [<-|[]]. exact Ex.
Qed.

Print Assumptions C117_ends_partial.
Print Assumptions C117_old.
Print Assumptions C117_several.
Print Assumptions C117_full_refuted.
Print Assumptions C118_learned_partial.
Print Assumptions C118_towards.
Print Assumptions C118_twice_refuted.
Print Assumptions C118_back_refuted.
