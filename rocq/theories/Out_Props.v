(** C108-C110: where messages, acknowledgements and announcements go when they leave the node *)
From Verif Require Import Base Dhkey_Model Dhkey_Proofs Bloom_Model Pheromone_Model Pheromone_Spec Bloom_Spec Bloom_Decay Bloom_Count Bloom_Nbf Pheromone_Filter Pheromone_Proofs Pheromone_Sim Pheromone_Hist Pheromone_Facts Pheromone_Props Data_Model Out_Model Out_Spec Out_Proofs.

Lemma u16_next x : 0 <= x < 65535 -> u16 (x + 1) = x + 1.
Proof. intros H. unfold u16. apply Z.mod_small. lia. Qed.
Lemma default_trail w m ks cur : w_connected w = true -> trail (w_table w) (m_subject m) true = Ok (ks, cur) -> 0 <= cur ->
  out_default w m = Done (send_chunks w m (m_audience m) ks).
Proof.
  intros Cn T C. unfold out_default. rewrite Cn. cbn [negb]. rewrite (default_ok 7 _ _ _ _ T C) by discriminate. cbn [lift rbind]. destruct ks; [|reflexivity].
  unfold send_chunks. cbn [filter map]. rewrite firstn_nil. reflexivity.
Qed.

(** A message of this node goes out in one copy, unchanged, to every neighbour on the trail to a receiver of its subject (except to
    this node itself and to neighbours that are not known any more), however weak the trail is; the answer says whether there was one. *)
Theorem C108_default : forall w m ks cur, w_connected w = true -> trail (w_table w) (m_subject m) true = Ok (ks, cur) -> 0 <= cur -> proper w ks -> enough_room w ks ->
  exists r cs, out_default w m = Done (r, cs) /\ (r = true <-> cs <> []) /\ handed_over m (usable w ks) cs.
Proof.
  intros w m ks cur Cn T C P R. destruct (send_ok w m (m_audience m) ks P R eq_refl) as (r & cs & E & H). exists r, cs. rewrite (default_trail w m ks cur Cn T C), E. split; [reflexivity|exact H].
Qed.

(** A message of somebody else goes on to all neighbours on the trail except the one it came from, with its number of hops increased
    and otherwise unchanged. *)
Theorem C108_forward : forall w prev m bucket tb' ks cur, w_connected w = true -> trail (w_table w) (m_subject m) true = Ok (ks, cur) -> 0 <= cur -> proper w ks -> enough_room w ks ->
  wf_key prev -> 0 <= m_hops m < 65535 -> exhale (w_table w) bucket = Ok tb' ->
  exists r cs, out_forward w prev m bucket = Done (r, cs, tb') /\ (r = true <-> cs <> []) /\ handed_over (one_further m) (fun k => usable w ks k /\ k <> prev) cs.
Proof.
  intros w prev m bucket tb' ks cur Cn T C P R Wp Hh Ex. unfold out_forward. rewrite Cn. cbn [negb]. rewrite (forward_ok 7 _ _ prev _ _ T C) by discriminate. cbn [lift rbind].
  destruct P as (P1 & P2 & P3). rewrite remove_twice by auto. rewrite (u16_next _ Hh). fold (one_further m). change (m_audience (one_further m)) with (m_audience m).
  destruct (send_ok w (one_further m) (m_audience m) (remove_first prev ks) (proper_remove w prev ks (conj P1 (conj P2 P3))) (room_remove w prev ks R) eq_refl) as (r & cs & E & H & Q).
  rewrite E, Ex. cbn [lift rbind]. exists r, cs. split; [reflexivity|]. split; [exact H|]. eapply handed_iff; [|exact Q]. intros k. unfold usable. rewrite (remove_first_spec prev ks k Wp P2 P3). tauto.
Qed.

(** the answer of a trail: its strength is not negative, nobody is listed twice *)
Lemma trail_facts me h tb s (r : bool) ks cur : good me h -> Pheromone_Spec.run (new_table me) h = Ok tb -> held tb = false -> wf_key s -> regular s -> trail tb s r = Ok (ks, cur) -> 0 <= cur /\ NoDup ks.
Proof.
  intros G E H W Rg T. pose proof (good_inv me h tb G E H) as I. assert (T' : snuffle tb s 0 (negb r) r = Ok (ks, cur)) by (destruct r; exact T). clear T. split.
  - destruct (snuffle_any me _ _ _ _ s 0 (negb r) r I W Rg) as (ks' & pr & Eq & Hks). rewrite T' in Eq. injection Eq as <- <-.
    unfold snuffle in T'. rewrite (iv_free _ _ _ _ _ I) in T'. unfold BUCKETS in T'. change (nth 0 s 0 mod 257) with (bucket_of s) in T'. pose proof (iv_rel _ _ _ _ _ I (bucket_of s)) as R. destruct (buckets tb (bucket_of s)) as [b|]; [|injection T' as _ <-; lia].
    destruct R as [FR CV]. rewrite top_check in T' by (auto; apply CV). cbn [obind] in T'. destruct (forallb _ (cells_of s)) eqn:Fb; [|injection T' as _ <-; lia].
    pose proof (cv_top _ _ CV) as T. unfold nbf_heuristic in T'. rewrite addrs_cells in T' by apply T.
    destruct (heur_ok (top b) (cells_of s) 0 T (cells_valid s W)) with (x := 256) as (p & Ep & P & _); [|lia| |].
    + intros c Hc. rewrite forallb_forall in Fb. specialize (Fb c Hc). pose proof (tp_a _ T c (valid_in s c W Hc)). pose proof (tp_c _ T c (valid_in s c W Hc)). lia.
    + lia.
    + rewrite Ep in T'. cbn [obind] in T'. destruct (0 <=? p); [|injection T' as _ <-; lia]. destruct (collect _ _ _ _); cbn [obind] in T'; try discriminate. injection T' as _ <-. lia.
  - destruct (snuffle_any me _ _ _ _ s 0 (negb r) r I W Rg) as (ks' & pr & Eq & Hks). rewrite T' in Eq. injection Eq as <- <-. destruct Hks as [->|Hk]; [constructor|].
    destruct (found_cases (arun me (fun _ => []) h (bucket_of s)) s (negb r) r (iv_distinct _ _ _ _ _ I _)) as [(e & He & S & Q)|Q]; rewrite Q in Hk; rewrite Hk; [|constructor].
    pose proof (iv_ae _ _ _ _ _ I (bucket_of s)) as FA. rewrite Forall_forall in FA. specialize (FA e He). destruct r; apply FA.
Qed.

(** As soon as a pheromone of a receiver has come in from a neighbour, messages of the subject are sent to it. *)
Theorem C108_smelled : forall me h c s src k tb, good me (h ++ [c]) -> smells_of c s src true k -> Z.of_nat k <= 15 ->
  Pheromone_Spec.run (new_table me) h = Ok tb -> held tb = false -> (forall b, buckets tb (bucket_of s) = Some b -> (length (ents b) <= 30)%nat /\ kept_in b <= 254) ->
  exists tb', step tb c = Ok (tb', true) /\
    forall w m, w_table w = tb' -> w_me w = me -> w_connected w = true -> w_cache w src <> None -> src <> me -> m_subject m = s ->
      (forall ks cur, trail tb' s true = Ok (ks, cur) -> enough_room w ks) ->
      exists cs, out_default w m = Done (true, cs) /\ In (mkCopy src (m_audience m) m) cs.
Proof.
  intros me h c s src k tb G Sm Hk E H Rm. destruct (C29_found me h c s src true k tb G Sm Hk E H Rm) as (tb' & E1 & F). exists tb'. split; [exact E1|].
  intros w m <- Em Cn Kn Ns <- Rr. destruct (F 0 ltac:(lia)) as (ks & cur & T & Is & N & C).
  assert (Hd : held (w_table w) = false) by (unfold snuffle_receiver, snuffle in T; destruct (held (w_table w)); [discriminate|reflexivity]).
  assert (Run : Pheromone_Spec.run (new_table me) (h ++ [c]) = Ok (w_table w)).
  { clear - E E1. revert E. generalize (new_table me). induction h as [|x h IH]; intros t; cbn [app Pheromone_Spec.run]; [intros [= ->]; rewrite E1; reflexivity|]. destruct (step t x) as [[t1 z]| |]; cbn [obind]; try discriminate. apply IH. }
  destruct (smells_of_iff _ _ _ _ _ Sm) as (now & Ec). destruct (good_cons_wf _ _ _ _ _ _ _ _ _ G Ec) as (Ws & Rs & _).
  destruct (C29_sound me (h ++ [c]) (w_table w) (m_subject m) true 0 G Run Hd Ws Rs) as (ks' & cur' & T' & Sd). cbn iota in T'. rewrite T in T'. injection T' as <- <-.
  assert (P : proper w ks).
  { split; [rewrite Em; apply G|]. split; [|exact N]. apply Forall_forall. intros x Hx. destruct (Sd x Hx) as (s' & _ & k' & t' & Q). pose proof (g_sources _ _ G) as Fs. rewrite Forall_forall in Fs. apply (Fs x). unfold sources. apply in_flat_map. destruct Q as [Q|Q]; eexists; (split; [exact Q|left; reflexivity]). }
  destruct (C108_default w m ks cur Cn T ltac:(lia) P (Rr ks cur T)) as (r & cs & Eq & Hr & (A & B & D)). assert (In src (map c_hop cs)) as I by (apply D; split; [exact Is|split; [rewrite Em; exact Ns|exact Kn]]).
  exists cs. apply in_map_iff in I. destruct I as (cp & <- & I). assert (cs <> []) by (intros ->; destruct I). replace r with true in Eq by (symmetry; tauto). split; [exact Eq|].
  rewrite Forall_forall in A. destruct (A cp I) as [A1 A2]. rewrite <- A2, <- A1. destruct cp; exact I.
Qed.

(** Whatever was smelled before: sending and forwarding come to an end, and no copy goes to anybody who did not bring a pheromone of
    a receiver of the subject (or of a subject the filters cannot tell from it), none to the node itself, and a forwarded message none back. *)
Theorem C108_nobody_else : forall me h w m, good me h -> Pheromone_Spec.run (new_table me) h = Ok (w_table w) -> held (w_table w) = false -> w_me w = me -> wf_key (m_subject m) -> regular (m_subject m) ->
  (exists r cs, out_default w m = Done (r, cs) /\
    forall c, In c cs -> c_hop c <> me /\ c_message c = m /\ c_target c = m_audience m /\ exists s', same_cells s' (m_subject m) /\ smelled h s' (c_hop c) true) /\
  (forall prev bucket tb', wf_key prev -> 0 <= m_hops m < 65535 -> exhale (w_table w) bucket = Ok tb' ->
    exists r cs tb2, out_forward w prev m bucket = Done (r, cs, tb2) /\
    forall c, In c cs -> c_hop c <> me /\ c_hop c <> prev /\ c_message c = one_further m /\ c_target c = m_audience m /\ exists s', same_cells s' (m_subject m) /\ smelled h s' (c_hop c) true).
Proof.
  intros me h w m G E H Em Ws Rs. destruct (C29_sound me h (w_table w) (m_subject m) true 0 G E H Ws Rs) as (ks & cur & T & Sd). cbn iota in T.
  assert (Wk : forall x, In x ks -> wf_key x).
  { intros x Hx. destruct (Sd x Hx) as (s' & _ & k' & t' & Q). pose proof (g_sources _ _ G) as Fs. rewrite Forall_forall in Fs. apply (Fs x). unfold sources. apply in_flat_map. destruct Q as [Q|Q]; eexists; (split; [exact Q|left; reflexivity]). }
  assert (Wm : wf_key (w_me w)) by (rewrite Em; apply G).
  assert (C : 0 <= cur). { apply (trail_facts me h (w_table w) (m_subject m) true ks cur); auto. }
  split.
  - destruct (w_connected w) eqn:Cn; [|exists false, []; unfold out_default; rewrite Cn; split; [reflexivity|intros c []]].
    rewrite (default_trail w m ks cur Cn T C). destruct (send_chunks w m (m_audience m) ks) as [r cs] eqn:Sc. exists r, cs. split; [reflexivity|]. intros c Hc.
    destruct (send_sub w m (m_audience m) ks c) as (I & A & B & D); [rewrite Sc; exact Hc|]. split; [intros Q; rewrite Q, Em, <- Em, (proj2 (equal_spec _ _ Wm Wm) eq_refl) in D; discriminate|]. auto.
  - intros prev bucket tb' Wp Hh Ex. destruct (w_connected w) eqn:Cn; [|exists false, [], (w_table w); unfold out_forward; rewrite Cn; split; [reflexivity|intros c []]].
    unfold out_forward. rewrite Cn. cbn [negb]. rewrite (forward_ok 7 _ _ prev _ _ T C) by discriminate. cbn [lift rbind]. assert (F : Forall wf_key ks) by (apply Forall_forall; auto). assert (Nd : NoDup ks) by (apply (trail_facts me h (w_table w) (m_subject m) true ks cur); auto).
    rewrite remove_twice by auto. rewrite (u16_next _ Hh). fold (one_further m). change (m_audience (one_further m)) with (m_audience m). destruct (send_chunks w (one_further m) (m_audience m) (remove_first prev ks)) as [r cs] eqn:Sc. rewrite Ex. cbn [lift rbind].
    exists r, cs, tb'. split; [reflexivity|]. intros c Hc. destruct (send_sub w (one_further m) (m_audience m) (remove_first prev ks) c) as (I & A & B & D); [rewrite Sc; exact Hc|].
    apply remove_first_spec in I; auto. destruct I as [I1 I2]. split; [intros Q; rewrite Q, Em, <- Em, (proj2 (equal_spec _ _ Wm Wm) eq_refl) in D; discriminate|]. auto.
Qed.

(** Without a connection nothing is sent, and the answer says so. *)
Theorem C108_no_connection : forall w m prev bucket, w_connected w = false -> out_default w m = Done (false, []) /\ out_forward w prev m bucket = Done (false, [], w_table w).
Proof. intros w m prev bucket C. unfold out_default, out_forward. rewrite C. auto. Qed.

(** The claim fails when the job queue is full: nothing is sent, the answer is the same as if it had been. *)
Theorem C108_full_refuted : forall w m ks cur, w_connected w = true -> trail (w_table w) (m_subject m) true = Ok (ks, cur) -> proper w ks -> w_room w = 0%nat ->
  (exists k, usable w ks k) -> out_default w m = Done (true, []).
Proof.
  intros w m ks cur Cn T (P1 & P2 & P3) R (k & I & Nm & Kn). assert (ks <> []) by (intros ->; destruct I). assert (C : 0 <= cur) by (eapply snuffle_nonneg; eauto).
  rewrite (default_trail w m ks cur Cn T C). unfold send_chunks. rewrite R. cbn [firstn]. destruct (filter _ ks) eqn:F; [|reflexivity]. exfalso.
  assert (Q : In k (filter (fun h => negb (np_dhkey_equal h (w_me w)) && exists_key w h) ks)).
  { apply filter_In. split; [exact I|]. apply andb_true_iff. split; [|unfold exists_key; destruct (w_cache w k); [reflexivity|congruence]]. apply negb_true_iff, not_true_is_false. rewrite Forall_forall in P2. intros Q. apply Nm. apply (equal_spec k (w_me w) (P2 k I) P1). exact Q. }
  rewrite F in Q. destruct Q.
Qed.

(** The claim fails for the number of hops 65535: it starts again at 0. *)
Theorem C108_hops_refuted : forall w prev m bucket r cs tb' c, m_hops m = 65535 -> out_forward w prev m bucket = Done (r, cs, tb') -> In c cs -> m_hops (c_message c) = 0.
Proof.
  intros w prev m bucket r cs tb' c Hh E I. unfold out_forward in E. destruct (w_connected w); cbn [negb] in E; [|injection E as <- <- <-; destruct I].
  destruct (forward_rounds _ _ _ _ _) as [l| |]; cbn [lift rbind] in E; try discriminate. rewrite Hh in E. change (u16 (65535 + 1)) with 0 in E.
  destruct (send_chunks _ _ _ _) as [r0 cs0] eqn:Sc. destruct (exhale _ _); cbn [lift rbind] in E; try discriminate. injection E as <- <- <-.
  eapply (f_equal snd) in Sc. cbn [snd] in Sc. rewrite <- Sc in I. apply send_sub in I. destruct I as (_ & -> & _). reflexivity.
Qed.

(** * C109: acknowledgements *)
(** An acknowledgement for a neighbour of the routing tables goes to it directly. *)
Theorem C109_neighbour : forall fuel w ack m, w_connected w = true -> w_cache w (m_audience m) = Some (Node true) -> wf_key (w_me w) -> wf_key (m_audience m) -> m_audience m <> w_me w -> (1 <= w_room w)%nat ->
  out_ack fuel w ack m = Done (true, [mkCopy (m_audience m) (m_audience m) m]).
Proof.
  intros fuel w ack m Cn K W1 W2 N R. unfold out_ack. rewrite Cn, K. cbn [negb rbind]. unfold send_chunks. cbn [filter]. unfold exists_key. rewrite K.
  destruct (np_dhkey_equal (m_audience m) (w_me w)) eqn:E; [apply equal_spec in E; auto; congruence|]. cbn [negb andb map]. destruct (w_room w); [lia|cbn [firstn]; rewrite firstn_nil; reflexivity].
Qed.
(** One for an unknown node follows the trail of its acknowledgements, if this is not weaker than 0.352 (90 of 256). *)
Theorem C109_trail_partial : forall fuel w ack m ks cur, w_connected w = true -> w_cache w (m_audience m) = None ->
  trail (w_table w) (np_dhkey_xor ack (m_audience m)) true = Ok (ks, cur) -> 90 <= cur -> ks <> [] -> proper w ks -> enough_room w ks ->
  exists r cs, out_ack (S (S fuel)) w ack m = Done (r, cs) /\ (r = true <-> cs <> []) /\ handed_over m (usable w ks) cs.
Proof.
  intros fuel w ack m ks cur Cn K T C N P R. destruct (send_ok w m (m_audience m) ks P R eq_refl) as (r & cs & E & H). exists r, cs. unfold out_ack. rewrite Cn, K. cbn [negb].
  rewrite (ack_ok fuel _ _ _ _ T C N). cbn [rbind]. rewrite E. split; [reflexivity|exact H].
Qed.
(** The claim fails for weaker trails: the acknowledgement is not sent, although other messages still follow such a trail (C108). *)
Theorem C109_weak_refuted : forall fuel w ack m ks cur, w_connected w = true -> w_cache w (m_audience m) = None ->
  trail (w_table w) (np_dhkey_xor ack (m_audience m)) true = Ok (ks, cur) -> 0 <= cur <= 89 -> out_ack (S fuel) w ack m = Done (false, []).
Proof.
  intros fuel w ack m ks cur Cn K T C. unfold out_ack. rewrite Cn, K. cbn [negb]. rewrite (ack_weak fuel _ _ _ _ T C). cbn [rbind]. unfold send_chunks. cbn [filter map]. rewrite firstn_nil. reflexivity.
Qed.
(** The claim fails for a known node that is not in the tables: no trail is looked for. *)
Theorem C109_not_in_tables_refuted : forall fuel w ack m, w_connected w = true -> w_cache w (m_audience m) = Some (Node false) -> out_ack fuel w ack m = Done (false, []).
Proof. intros fuel w ack m Cn K. unfold out_ack. rewrite Cn, K. cbn [negb rbind]. unfold send_chunks. cbn [filter map]. rewrite firstn_nil. reflexivity. Qed.
(** The claim fails for an acknowledgement addressed to something that is no node, like a subject or an identity this node has a key
    of: a neighbour who sends it crashes the node. *)
Theorem C109_crash_refuted : forall fuel w ack prev m bucket, w_connected w = true -> wf_key ack -> m_subject m = ack -> w_cache w (m_audience m) = Some NoNode -> forward fuel w ack prev m bucket = Undef.
Proof. intros fuel w ack prev m bucket Cn W Hs K. unfold forward. cbn [m_subject]. rewrite Hs, (proj2 (equal_spec ack ack W W) eq_refl). unfold out_ack. cbn [m_audience]. rewrite Cn, K. reflexivity. Qed.
(** The claim fails when a pheromone of a sender of these acknowledgements came in and none of a receiver: the job that sends the
    acknowledgement never ends.  Neighbours send pheromones of any subject. *)
Theorem C109_hang_refuted : forall me h c s src k tb, good me (h ++ [c]) -> smells_of c s src false k -> Z.of_nat k <= 4 ->
  Pheromone_Spec.run (new_table me) h = Ok tb -> held tb = false -> (forall b, buckets tb (bucket_of s) = Some b -> (length (ents b) <= 30)%nat /\ kept_in b <= 254) ->
  (forall s' src', same_cells s' s -> ~ smelled (h ++ [c]) s' src' true) ->
  exists tb', step tb c = Ok (tb', true) /\
    forall fuel w ack prev m bucket, w_table w = tb' -> w_connected w = true -> wf_key ack -> m_subject m = ack -> w_cache w (m_audience m) = None -> np_dhkey_xor ack (m_audience m) = s ->
      forward fuel w ack prev m bucket = Hangs.
Proof.
  intros me h c s src k tb G Sm Hk E H Rm No. destruct (C29_found me h c s src false k tb G Sm ltac:(lia) E H Rm) as (tb' & E1 & F). exists tb'. split; [exact E1|].
  intros fuel w ack prev m bucket <- Cn W Hs Kn <-. destruct (F 0 ltac:(lia)) as (ks & cur & T & Is & N & C).
  assert (Hd : held (w_table w) = false) by (unfold snuffle_sender, snuffle in T; destruct (held (w_table w)); [discriminate|reflexivity]).
  assert (Run : Pheromone_Spec.run (new_table me) (h ++ [c]) = Ok (w_table w)).
  { clear - E E1. revert E. generalize (new_table me). induction h as [|x h IH]; intros t; cbn [app Pheromone_Spec.run]; [intros [= ->]; rewrite E1; reflexivity|]. destruct (step t x) as [[t1 z]| |]; cbn [obind]; try discriminate. apply IH. }
  destruct (smells_of_iff _ _ _ _ _ Sm) as (now & Ec). destruct (good_cons_wf _ _ _ _ _ _ _ _ _ G Ec) as (Ws & Rs & _).
  destruct (C29_sound me (h ++ [c]) (w_table w) (np_dhkey_xor ack (m_audience m)) true 0 G Run Hd Ws Rs) as (ks' & cur' & T' & Sd). cbn iota in T'.
  assert (cur' = cur) by (eapply snuffle_strength; [exact T'|exact T]). subst cur'.
  assert (ks' = []) as -> by (destruct ks' as [|x l]; [reflexivity|]; exfalso; destruct (Sd x (or_introl eq_refl)) as (s' & Q1 & Q2); exact (No s' x Q1 Q2)).
  unfold forward. cbn [m_subject]. rewrite Hs, (proj2 (equal_spec ack ack W W) eq_refl). unfold out_ack. cbn [m_audience]. rewrite Cn, Kn. cbn [negb]. rewrite (ack_hang (w_table w) _ cur T'); [reflexivity|lia|lia].
Qed.

(** * C110: announcements *)
(** the subject is counted as one hop further only when it is somebody else's *)
Theorem C110_trail_partial : forall w prev (r : bool) m bucket tb' ks cur, w_connected w = true -> trail (w_table w) (m_audience m) r = Ok (ks, cur) -> 52 <= cur -> proper w ks -> enough_room w ks ->
  wf_key prev -> 0 <= m_hops m < 65535 -> exhale (w_table w) bucket = Ok tb' ->
  exists b cs, out_available w prev (if r then Receivers else Senders) m bucket = Done (b, cs, tb') /\ (b = true <-> cs <> []) /\
    handed_over (if m_forwarded m then one_further m else m) (fun k => usable w ks k /\ k <> prev) cs.
Proof.
  intros w prev r m bucket tb' ks cur Cn T C P R Wp Hh Ex. unfold out_available. rewrite Cn. cbn [negb].
  set (m1 := if m_forwarded m then _ else m). assert (m1 = if m_forwarded m then one_further m else m) as ->. { unfold m1, one_further. rewrite (u16_next _ Hh). destruct (m_forwarded m); reflexivity. }
  replace (m_audience (if m_forwarded m then one_further m else m)) with (m_audience m) by (destruct (m_forwarded m); reflexivity). set (m2 := if m_forwarded m then one_further m else m).
  assert (Ea : m_audience m2 = m_audience m) by (unfold m2; destruct (m_forwarded m); reflexivity).
  rewrite (available_ok 8 _ _ r _ _ T ltac:(lia)) by (change (demand (2560 - 256 * Z.of_nat 8)) with 52; lia). cbn [lift rbind]. destruct P as (P1 & P2 & P3).
  destruct (send_ok w m2 (m_audience m) (remove_first prev ks) (proper_remove w prev ks (conj P1 (conj P2 P3))) (room_remove w prev ks R) Ea) as (b & cs & E & H & Q).
  assert (Q' : handed_over m2 (fun k => usable w ks k /\ k <> prev) cs) by (eapply handed_iff; [|exact Q]; intros k; unfold usable; rewrite (remove_first_spec prev ks k Wp P2 P3); tauto).
  exists b, cs. split; [|split; [exact H|exact Q']]. destruct (remove_first prev ks) eqn:L; rewrite ?E, Ex; [|reflexivity]. cbn [lift rbind].
  unfold send_chunks in E. cbn [filter map] in E. rewrite firstn_nil in E. injection E as <- <-. reflexivity.
Qed.
(** The claim fails for trails below 0.2 (52 of 256): the announcement is not passed on, although messages of the subject still are. *)
Theorem C110_weak_refuted : forall w prev (r : bool) m bucket tb' ks cur, w_connected w = true -> trail (w_table w) (m_audience m) r = Ok (ks, cur) -> 0 <= cur <= 51 -> exhale (w_table w) bucket = Ok tb' ->
  out_available w prev (if r then Receivers else Senders) m bucket = Done (false, [], tb').
Proof.
  intros w prev r m bucket tb' ks cur Cn T C Ex. unfold out_available. rewrite Cn. cbn [negb]. replace (m_audience (if m_forwarded m then _ else m)) with (m_audience m) by (destruct (m_forwarded m); reflexivity).
  rewrite (available_weak 8 _ _ r _ _ T ltac:(lia)) by (change (demand (2560 - 256 * Z.of_nat 8)) with 52; lia). cbn [lift rbind remove_first]. rewrite Ex. reflexivity.
Qed.
(** Any other subject is not announced. *)
Theorem C110_neither : forall w prev m bucket tb', w_connected w = true -> exhale (w_table w) bucket = Ok tb' -> out_available w prev Neither m bucket = Done (false, [], tb').
Proof. intros w prev m bucket tb' Cn Ex. unfold out_available. rewrite Cn. cbn [negb available_rounds lift rbind remove_first]. rewrite Ex. reflexivity. Qed.

(** * The hypotheses are met *)
Definition after (h : list call) : table := match Pheromone_Spec.run (new_table here) h with Ok tb => tb | _ => new_table here end.
Definition all_near : key -> option entry := fun k => if existsb (np_dhkey_equal k) [near 1; near 2; near 3] then Some (Node true) else None.
Definition node (h : list call) : world := mkW here all_near true (after h) 10.
Definition hello (s to : key) : message := mkM s to false 3 [1; 2].
Definition two_ways : list call := [Use (topic 1) (near 1) true 1; Use (topic 2) (near 2) false 2; Use (topic 1) (near 3) true 4].
Definition same_keys (l l' : list key) : bool := forallb (fun k => existsb (np_dhkey_equal k) l') l && forallb (fun k => existsb (np_dhkey_equal k) l) l'.
Example C108_default_case : match out_default (node two_ways) (hello (topic 1) (topic 7)) with
  | Done (true, cs) => same_keys (map c_hop cs) [near 1; near 3] && Nat.eqb (length cs) 2 && forallb (fun c => m_hops (c_message c) =? 3) cs | _ => false end = true.
Proof. vm_compute. reflexivity. Qed.
Example C108_forward_case : match out_forward (node two_ways) (near 1) (hello (topic 1) (topic 7)) 5 with
  | Done (true, cs, _) => same_keys (map c_hop cs) [near 3] && Nat.eqb (length cs) 1 && forallb (fun c => m_hops (c_message c) =? 4) cs | _ => false end = true.
Proof. vm_compute. reflexivity. Qed.
Example C108_smelled_case : good here [Use (topic 1) (near 1) true 1].
Proof. apply good_b_ok. vm_compute. reflexivity. Qed.
Example C108_nobody_else_case : good here two_ways /\ held (after two_ways) = false.
Proof. split; [apply good_b_ok; vm_compute; reflexivity|vm_compute; reflexivity]. Qed.
Example C108_full_case : match out_default (mkW here all_near true (after two_ways) 0) (hello (topic 1) (topic 7)) with Done (true, []) => true | _ => false end = true.
Proof. vm_compute. reflexivity. Qed.
(** trails of strength 128 - 8 * k; the audience is the subject, the hash of "_NP.ACK" is taken as 0 *)
Definition zero : key := repeat 0 8.
Example C109_trail_case : np_dhkey_xor zero (topic 1) = topic 1 /\
  match trail (after [Smell (topic 1) (near 1) true 4 1]) (topic 1) true with Ok (ks, cur) => same_keys ks [near 1] && (cur =? 96) | _ => false end = true /\
  match out_ack 2 (node [Smell (topic 1) (near 1) true 4 1]) zero (hello zero (topic 1)) with Done (true, cs) => same_keys (map c_hop cs) [near 1] | _ => false end = true.
Proof. vm_compute. auto. Qed.
Example C109_weak_case : match trail (after [Smell (topic 1) (near 1) true 5 1]) (topic 1) true with Ok (ks, cur) => same_keys ks [near 1] && (cur =? 88) | _ => false end = true.
Proof. vm_compute. reflexivity. Qed.
Example C109_hang_case : good here [Smell (topic 1) (near 1) false 4 1] /\ (forall s src, ~ smelled [Smell (topic 1) (near 1) false 4 1] s src true) /\
  match out_ack 20 (node [Smell (topic 1) (near 1) false 4 1]) zero (hello zero (topic 1)) with Hangs => true | _ => false end = true.
Proof. split; [apply good_b_ok; vm_compute; reflexivity|]. split; [|vm_compute; reflexivity]. intros s src (k & now & [[H|[]]|[H|[]]]); discriminate. Qed.
Example C109_crash_case : out_ack 1 (mkW here (fun k => if np_dhkey_equal k (topic 1) then Some NoNode else None) true (new_table here) 10) zero (hello zero (topic 1)) = Undef.
Proof. vm_compute. reflexivity. Qed.
Example C110_trail_case : match out_available (node two_ways) (near 1) Receivers (hello zero (topic 1)) 5 with Done (true, cs, _) => same_keys (map c_hop cs) [near 3] | _ => false end = true /\
  match out_available (node two_ways) (near 1) Senders (hello zero (topic 2)) 5 with Done (true, cs, _) => same_keys (map c_hop cs) [near 2] | _ => false end = true.
Proof. vm_compute. auto. Qed.
Example C110_weak_case : match trail (after [Smell (topic 1) (near 1) true 10 1]) (topic 1) true with Ok (ks, cur) => same_keys ks [near 1] && (cur =? 48) | _ => false end = true.
Proof. vm_compute. reflexivity. Qed.

Print Assumptions C108_default.
Print Assumptions C108_forward.
Print Assumptions C108_smelled.
Print Assumptions C108_nobody_else.
Print Assumptions C108_no_connection.
Print Assumptions C108_full_refuted.
Print Assumptions C108_hops_refuted.
Print Assumptions C109_neighbour.
Print Assumptions C109_trail_partial.
Print Assumptions C109_weak_refuted.
Print Assumptions C109_not_in_tables_refuted.
Print Assumptions C109_crash_refuted.
Print Assumptions C109_hang_refuted.
Print Assumptions C110_trail_partial.
Print Assumptions C110_weak_refuted.
Print Assumptions C110_neither.
