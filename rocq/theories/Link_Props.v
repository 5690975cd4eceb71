(** C87: a peer is kept while it answers and given up when it does not.
    C88: connecting to a peer is tried again and comes to an end. *)
From Verif Require Import Base Link_Model Link_Spec Link_Proofs.

(** ** The average is taken over the last 31 outcomes *)
Theorem C87_average t0 p rnd hs es1 a es2 u :
  accepted t0 p rnd hs es1 a es2 -> l_phase (peer t0 p rnd hs (es1 ++ a :: es2)) = InUse -> e_kind u = Other ->
  l_avg2 (peer t0 p rnd hs (es1 ++ a :: es2 ++ [u])) = 2 * Z.of_nat (answered es2).
Proof.
  intros A P K. destruct (accepted_split _ _ _ _ _ _ _ A P) as (l & E & V & Q & S1 & W & T & O & R & _).
  rewrite R in P. pose proof (use_run _ _ _ _ _ _ _ W O P) as W'. simpl app in W'.
  replace (es1 ++ a :: es2 ++ [u]) with ((es1 ++ a :: es2) ++ [u]) by (rewrite <- app_assoc; reflexivity).
  unfold peer in *. rewrite run_fst_app, run_one, R. unfold step. rewrite K, P.
  destruct (update_fields u (fst (run l es2))) as (b & t & U). rewrite U. simpl.
  rewrite (answered_ones _ _ _ _ _ _ W'). reflexivity.
Qed.

(** ** A peer that answers at least 8 of any 31 questions in a row is kept, and is not told that we leave.
    Missing in the claim: it must have been accepted within 15 attempts to connect, see [C88_accepted_late_refuted]. *)
Theorem C87_kept_partial t0 p rnd hs es1 a es2 :
  accepted t0 p rnd hs es1 a es2 -> l_phase (peer t0 p rnd hs (es1 ++ [a])) = InUse -> e_leafset a = true ->
  (attempts (sent t0 p rnd hs (es1 ++ [a])) <= 15)%nat ->
  undisturbed es2 -> keeps_answering es2 ->
  l_phase (peer t0 p rnd hs (es1 ++ a :: es2)) = InUse /\ leaves (sent t0 p rnd hs (es1 ++ a :: es2)) = 0%nat.
Proof.
  intros A P L N U K. destruct (accepted_kept _ _ _ _ _ _ _ A P L N) as (l & E & W & KI & O & R & S & NP & NO & NL).
  destruct (kept_run es2 _ _ _ _ [] l W KI O U K) as (_ & X & Y).
  rewrite R, S, leaves_app, NL, Y. auto.
Qed.

(** ** A peer with at most 7 answers in the last 31 outcomes is given up by the third check that finds no new answer *)
Theorem C87_given_up t0 p rnd hs es1 a es2 n1 m1 n2 m2 n3 :
  accepted t0 p rnd hs es1 a (es2 ++ n1 :: m1 ++ n2 :: m2 ++ [n3]) ->
  (answered es2 <= 7)%nat -> no_answer (m1 ++ m2) ->
  e_kind n1 = Noop -> e_kind n2 = Noop -> e_kind n3 = Noop ->
  e_now a < e_now n1 -> t0 + grace <= e_now n1 ->
  l_phase (peer t0 p rnd hs (es1 ++ a :: es2 ++ n1 :: m1 ++ n2 :: m2 ++ [n3])) = Gone.
Proof.
  intros A AN NA K1 K2 K3 TJ G. change grace with GRACETIME in G.
  destruct (l_phase (peer t0 p rnd hs (es1 ++ a :: es2 ++ n1 :: m1 ++ n2 :: m2 ++ [n3]))) eqn:P; [| |reflexivity].
  - (* never back to Setup *) exfalso.
    destruct A as [B1 B2 B3 B4 B5].
    pose proof (setup_run es1 t0 p rnd t0 _ (fresh_setup t0 p rnd hs B1) B3 B1 (in_order_app _ _ _ B5)) as V.
    unfold peer in P. rewrite run_fst_app, run_fst_cons in P.
    destruct (si_phase _ _ _ _ _ V) as [Q|Q].
    + assert (X : l_phase (fst (step (fst (run (fresh t0 p rnd hs) es1)) a)) = InUse).
      { eapply upgrade_use; eauto. pose proof (in_order_tail _ _ _ B5) as [O _]. pose proof (last_time_ge _ _ (in_order_app _ _ _ B5)). lia. }
      destruct (gone_or (es2 ++ n1 :: m1 ++ n2 :: m2 ++ [n3]) _ X); congruence.
    + rewrite (gone_run _ _ (gone_step _ a Q)) in P. discriminate.
  - destruct (accepted_split _ _ _ _ _ _ _ A P) as (l & E & V & Q & S1 & W & T & O & R & _).
    rewrite R in P. apply Forall_app in NA. destruct NA as [NA1 NA2].
    pose proof (ui_phase _ _ _ _ _ _ W) as PH.
    assert (P1 : l_phase (fst (run l es2)) = InUse) by (eapply inuse_prefix; eauto).
    pose proof (use_run es2 _ _ _ _ _ _ W (in_order_app _ _ _ O) P1) as W1. simpl app in W1.
    pose proof (in_order_tail _ _ _ O) as O1. rewrite run_fst_app in P. set (l1 := fst (run l es2)) in *. clearbody l1.
    destruct O1 as [O1 O2]. set (t1 := last_time (e_now a) es2) in *. clearbody t1.
    assert (P2 : l_phase (fst (step l1 n1)) = InUse).
    { rewrite <- run_one. apply (inuse_prefix [n1] (m1 ++ n2 :: m2 ++ [n3])); [assumption|exact P]. }
    pose proof (use_step _ _ _ _ _ _ _ W1 O1 P2) as W2.
    pose proof (stage_noop1 _ _ _ _ _ _ _ W1 AN K1 TJ G P2) as ST1.
    assert (AN2 : (answered (es2 ++ [n1]) <= 7)%nat).
    { pose proof (answered_less es2 n1). rewrite K1 in H. specialize (H ltac:(discriminate)). lia. }
    rewrite run_fst_cons in P. set (l2 := fst (step l1 n1)) in *. clearbody l2.
    assert (P3 : l_phase (fst (run l2 m1)) = InUse) by (eapply inuse_prefix; eauto).
    destruct (stage_run false m1 _ _ _ _ _ _ W2 AN2 NA1 (in_order_app _ _ _ O2) TJ ST1 P3) as [ST2 AN3].
    pose proof (use_run m1 _ _ _ _ _ _ W2 (in_order_app _ _ _ O2) P3) as W3.
    pose proof (last_time_ge _ _ (in_order_app _ _ _ O2)) as T3.
    pose proof (in_order_tail _ _ _ O2) as O3. rewrite run_fst_app in P. set (l3 := fst (run l2 m1)) in *. clearbody l3.
    destruct O3 as [O3 O4].
    assert (P4 : l_phase (fst (step l3 n2)) = InUse).
    { rewrite <- run_one. apply (inuse_prefix [n2] (m2 ++ [n3])); [assumption|exact P]. }
    pose proof (use_step _ _ _ _ _ _ _ W3 O3 P4) as W4.
    pose proof (stage_noop2 _ _ _ _ _ _ _ W3 ST2 K2 ltac:(lia) ltac:(lia) P4) as ST3.
    assert (AN4 : (answered (((es2 ++ [n1]) ++ m1) ++ [n2]) <= 7)%nat).
    { pose proof (answered_less ((es2 ++ [n1]) ++ m1) n2). rewrite K2 in H. specialize (H ltac:(discriminate)). lia. }
    rewrite run_fst_cons in P. set (l4 := fst (step l3 n2)) in *. clearbody l4.
    assert (P5 : l_phase (fst (run l4 m2)) = InUse) by (eapply inuse_prefix; eauto).
    destruct (stage_run true m2 _ _ _ _ _ _ W4 AN4 NA2 (in_order_app _ _ _ O4) ltac:(lia) ST3 P5) as [ST4 AN5].
    pose proof (use_run m2 _ _ _ _ _ _ W4 (in_order_app _ _ _ O4) P5) as W5.
    pose proof (last_time_ge _ _ (in_order_app _ _ _ O4)) as T5.
    pose proof (in_order_tail _ _ _ O4) as [O5 _].
    rewrite run_fst_app, run_one in P.
    rewrite (stage_noop3 _ _ _ _ _ _ _ W5 ST4 K3 ltac:(lia)) in P. discriminate.
Qed.

(** 24 questions in a row without an answer are enough for that, whatever happened before; 23 are not. *)
Theorem C87_silence_counts es :
  (exists before, outcomes es = before ++ repeat false 24) -> (answered es <= 7)%nat.
Proof.
  intros [h E]. unfold answered. rewrite E. unfold last31. rewrite app_assoc.
  set (g := presumed ++ h). assert (31 <= length g)%nat by (unfold g; rewrite app_length, presumed_length; lia).
  rewrite app_length, repeat_length, skipn_app, count_occ_app.
  replace (length g + 24 - 31 - length g)%nat with 0%nat by lia. rewrite skipn_O.
  change (count_occ Bool.bool_dec (repeat false 24) true) with 0%nat.
  pose proof (count_occ_bound Bool.bool_dec true (skipn (length g + 24 - 31) g)) as B.
  rewrite skipn_length in B. lia.
Qed.
Theorem C87_short_silence_kept es :
  (exists before, outcomes es = before ++ repeat true 8 ++ repeat false 23) -> (8 <= answered es)%nat.
Proof.
  intros [h E]. unfold answered. rewrite E. unfold last31. rewrite !app_length. rewrite app_assoc.
  replace (length presumed + (length h + (length (repeat true 8) + length (repeat false 23))) - 31)%nat with (length (presumed ++ h) + 0)%nat
    by (rewrite app_length, presumed_length, !repeat_length; lia).
  rewrite skipn_app. replace (length (presumed ++ h) + 0 - length (presumed ++ h))%nat with 0%nat by lia.
  rewrite skipn_all2 by lia. simpl. lia.
Qed.

(** ** While it answers, a peer is asked again at the latest 94.2 s after the last question *)
Theorem C87_asked_again t0 p rnd hs es1 a es2 u :
  accepted t0 p rnd hs es1 a (es2 ++ [u]) -> l_phase (peer t0 p rnd hs (es1 ++ [a])) = InUse -> e_leafset a = true ->
  (attempts (sent t0 p rnd hs (es1 ++ [a])) <= 15)%nat ->
  undisturbed (es2 ++ [u]) -> keeps_answering (es2 ++ [u]) -> e_kind u = Noop ->
  t0 + ping_long <= e_now u -> (forall t, In (t, OPing) (sent t0 p rnd hs (es1 ++ a :: es2)) -> t + ping_long <= e_now u) ->
  In (e_now u, OPing) (sent t0 p rnd hs (es1 ++ a :: es2 ++ [u])).
Proof.
  intros A P L N U K KU T0 TP.
  destruct (accepted_kept _ _ _ _ _ _ _ A P L N) as (l & E & W & KI & O & R & S & NP & NO & NL).
  assert (A2 : accepted t0 p rnd hs es1 a es2).
  { destruct A as [B1 B2 B3 B4 B5]. split; auto. apply (in_order_app (es1 ++ a :: es2) [u]). rewrite <- app_assoc. exact B5. }
  destruct (accepted_kept _ _ _ _ _ _ _ A2 P L N) as (l' & E' & _ & _ & _ & R' & S' & _). rewrite <- E in E'. subst l'.
  apply Forall_app in U. destruct U as [U1 U2]. inversion U2 as [|? ? U3 _]; subst.
  set (l := peer t0 p rnd hs (es1 ++ [a])) in *.
  assert (K1 : forall h' rest, [] ++ es2 = h' ++ rest -> (8 <= answered h')%nat).
  { intros h' rest X. apply (K h' (rest ++ [u])). simpl in X. rewrite X, app_assoc. reflexivity. }
  pose proof (in_order_app _ _ _ O) as O1.
  destruct (kept_run es2 _ _ _ _ [] l W KI O1 U1 K1) as (KI' & PH' & _).
  pose proof (use_run es2 _ _ _ _ _ _ W O1 PH') as W'.
  assert (NX : l_next_ping (fst (run l es2)) <= e_now u).
  { assert (G : forall es h l0 t, use_inv t0 p (e_now a) t h l0 -> in_order t es -> l_phase (fst (run l0 es)) = InUse ->
      l_next_ping (fst (run l0 es)) <= l_next_ping l0 \/ exists t', In (t', OPing) (snd (run l0 es)) /\ l_next_ping (fst (run l0 es)) <= t' + ping_long).
    { clear. induction es as [|e es IH]; intros h l0 t V O P; [left; simpl; lia|].
      destruct O as [O1 O2].
      assert (P' : l_phase (fst (step l0 e)) = InUse).
      { rewrite <- run_one. apply (inuse_prefix [e] es); [apply V|exact P]. }
      rewrite run_fst_cons, run_snd_cons in *.
      destruct (IH _ _ _ (use_step _ _ _ _ _ _ _ V O1 P') O2 P) as [B|(t' & B1 & B2)].
      - destruct (step_outs l0 e) as [(l' & S1 & S2 & S3 & S4)|[[S1 S2]|[S1 [S2 S3]]]].
        + left; lia.
        + destruct (update_ping_out e l0) as [[X Y]|(X & Y1 & Y2 & Y3)].
          * rewrite S2 in *. left. lia.
          * right. exists (e_now e). split; [rewrite S1, X; left; reflexivity|].
            rewrite S2 in *. specialize (Y3 ltac:(pose proof (count_le (l_swin l0)); rewrite (ui_len _ _ _ _ _ _ V) in *; lia)). lia.
        + left; lia.
      - right. exists t'. split; [apply in_or_app; right; assumption|assumption]. }
    destruct (G es2 [] l _ W O1 PH') as [B|(t' & B1 & B2)].
    - rewrite NP in B. destruct A as [_ [B1 B2] _ _ _]. unfold ping_short, ping_long in *. lia.
    - specialize (TP t'). rewrite S' in TP. specialize (TP ltac:(apply in_or_app; right; assumption)). lia. }
  rewrite S. apply in_or_app. right. rewrite run_app. apply in_or_app. right. rewrite run_snd_cons. apply in_or_app. left.
  cbn [snd]. rewrite (kept_step_update _ _ _ _ _ _ _ W' KI' ltac:(rewrite KU; reflexivity) (proj2 (proj2 U3))).
  pose proof (answered_ones _ _ _ _ _ _ W') as AO. pose proof (K1 es2 [] ltac:(rewrite app_nil_r; reflexivity)) as A8. simpl app in AO.
  unfold update. destruct (left_net (averages (fst (run l es2)))) eqn:LN.
  { exfalso. unfold left_net in LN. simpl in LN. pose proof (ui_join _ _ _ _ _ _ W'). rewrite (ki_leave _ KI') in LN. lia. }
  destruct (update_join_table_fields u (averages (fst (run l es2)))) as [b1 E1]. rewrite E1.
  unfold update_ping. replace (above_bad _ && _) with true; [left; reflexivity|].
  symmetry. apply andb_true_intro. unfold above_bad. cbn. rewrite AO. split; lia.
Qed.

(** Two questions are at least 24.3 s apart. *)
Theorem C87_not_flooded t0 p rnd hs es : apart 243220076400 OPing (sent t0 p rnd hs es).
Proof. apply pings_apart_run. Qed.

(** ** At most one leave message is sent *)
Theorem C87_leaves_once t0 p rnd hs es : 0 <= t0 -> in_order t0 es -> (leaves (sent t0 p rnd hs es) <= 1)%nat.
Proof. intros T O. apply (leaves_run es (fresh t0 p rnd hs) t0); [simpl; lia|assumption]. Qed.

(** ** Routing table: a peer that failed to answer and has less than 24 answers of 31 is taken out,
    and is only put in after an answer, 31.4 s after it was created, and if it can be reached *)
Theorem C87_table_out t0 p rnd hs es1 a es2 u :
  accepted t0 p rnd hs es1 a es2 -> l_phase (peer t0 p rnd hs (es1 ++ a :: es2)) = InUse -> still_in (peer t0 p rnd hs (es1 ++ a :: es2)) ->
  e_kind u = Other -> e_table u = true -> last (presumed ++ outcomes es2) false = false -> (answered es2 <= 23)%nat ->
  l_table (peer t0 p rnd hs (es1 ++ a :: es2 ++ [u])) = false.
Proof.
  intros A P SI K TB LO AN. destruct (accepted_split _ _ _ _ _ _ _ A P) as (l & E & V & Q & S1 & W & T & O & R & _).
  rewrite R in *. pose proof (use_run _ _ _ _ _ _ _ W O P) as W'. simpl app in W'.
  replace (es1 ++ a :: es2 ++ [u]) with ((es1 ++ a :: es2) ++ [u]) by (rewrite <- app_assoc; reflexivity).
  unfold peer in *. rewrite run_fst_app, run_one, R. unfold step. rewrite K, P.
  set (q := fst (run l es2)) in *. pose proof (use_last _ _ _ _ _ _ W') as UL. rewrite LO in UL.
  pose proof (answered_ones _ _ _ _ _ _ W') as AO.
  unfold update. replace (left_net (averages q)) with false by (symmetry; unfold left_net, still_in in *; simpl; lia).
  destruct (update_join_table_fields u (averages q)) as [b1 E1]. rewrite E1.
  destruct (update_ping_fields (e_now u) (w_table b1 (averages q))) as [t E2].
  destruct (update_ping _ _) as [q2 o]; simpl in E2. subst q2. cbn [fst]. unfold update_leave_table.
  change (last_outcome (w_next_ping t (w_table b1 (averages q)))) with (last_outcome q). rewrite UL, TB.
  assert (E4 : l_avg2 (w_next_ping t (w_table b1 (averages q))) = 2 * ones (l_swin q)) by reflexivity.
  unfold not_good. rewrite E4, AO. replace (4 * (2 * Z.of_nat (answered es2)) <=? 186) with true by lia.
  change (l_table (w_next_ping t (w_table b1 (averages q)))) with b1. destruct b1; reflexivity.
Qed.
Theorem C87_table_in t0 p rnd hs es1 a es2 u :
  accepted t0 p rnd hs es1 a es2 -> l_phase (peer t0 p rnd hs (es1 ++ a :: es2)) = InUse -> e_kind u <> Table true ->
  l_table (peer t0 p rnd hs (es1 ++ a :: es2)) = false -> l_table (peer t0 p rnd hs (es1 ++ a :: es2 ++ [u])) = true ->
  last (presumed ++ outcomes es2) false = true /\ t0 + ping_short < e_now u /\ p = false.
Proof.
  intros A P K T0 T1. destruct (accepted_split _ _ _ _ _ _ _ A P) as (l & E & V & Q & S1 & W & T & O & R & _).
  rewrite R in *. pose proof (use_run _ _ _ _ _ _ _ W O P) as W'. simpl app in W'.
  replace (es1 ++ a :: es2 ++ [u]) with ((es1 ++ a :: es2) ++ [u]) in T1 by (rewrite <- app_assoc; reflexivity).
  unfold peer in *. rewrite run_fst_app, run_one, R in T1.
  set (q := fst (run l es2)) in *. pose proof (use_last _ _ _ _ _ _ W') as UL. rewrite <- UL. clearbody q.
  assert (X : l_table (fst (update u q)) = true -> last_outcome q = true /\ t0 + ping_short < e_now u /\ p = false).
  { clear T1. unfold update. destruct (left_net (averages q)); [simpl; congruence|].
    unfold update_join_table. destruct (_ && _) eqn:B.
    - intros _. apply andb_prop in B; destruct B as [B B4]. apply andb_prop in B; destruct B as [B B3]. apply andb_prop in B; destruct B as [B1 B2].
      change (last_outcome (averages q)) with (last_outcome q) in B2. simpl in B3, B4.
      rewrite (ui_created _ _ _ _ _ _ W') in B3. rewrite (ui_passive _ _ _ _ _ _ W') in B4.
      split; [assumption|]. split; [change PINGS_SEC with ping_short in B3; lia|destruct p; [discriminate|reflexivity]].
    - intros Y. exfalso. revert Y. destruct (update_ping_fields (e_now u) (averages q)) as [t E2]. destruct (update_ping _ _) as [q2 o]; simpl in E2. subst q2.
      cbn [fst]. unfold update_leave_table. simpl. rewrite T0. rewrite Bool.andb_false_r. simpl. congruence. }
  unfold step in T1. rewrite P in T1. destruct (e_kind u) eqn:KU; cbn [fst] in T1; try (apply X; exact T1);
    try (simpl in T1; congruence).
  - destruct (has_to_leave _ _); [simpl in T1; congruence|]. destruct (is_invalid u q); [discriminate|]. apply X; exact T1.
Qed.

(** ** Latency: between the smallest and the largest time measured, if the clock has moved between question and answer *)
Theorem C87_latency_partial t0 p rnd hs es1 a es2 u lo hi :
  accepted t0 p rnd hs es1 a es2 -> l_phase (peer t0 p rnd hs (es1 ++ a :: es2)) = InUse -> e_kind u = Other ->
  0 < lo <= 100000000 -> 100000000 <= hi -> measured lo hi es2 ->
  lo <= l_latency (peer t0 p rnd hs (es1 ++ a :: es2 ++ [u])) <= hi.
Proof.
  intros A P K LO HI M. destruct (accepted_split _ _ _ _ _ _ _ A P) as (l & E & V & Q & S1 & W & T & O & R & _).
  rewrite R in *.
  assert (LI : lat_inv lo hi l).
  { rewrite S1. unfold step. rewrite (acc_a _ _ _ _ _ _ _ A), Q. unfold upgrade.
    destruct (completion_fields (e_now a) (peer t0 p rnd hs es1)) as (A1&A2&A3&A4&A5&A6&A7&A8&A9&A10&A11&A12&A13&A14).
    destruct (completion (e_now a) _) as [l' o]; cbn [fst] in *.
    assert (X : l_lwin l' = repeat 100000000 31) by (rewrite A11, (si_lwin _ _ _ _ _ V); reflexivity).
    assert (Y : l_latency l' = - SECOND) by (rewrite A13; apply V).
    assert (Z : forall q, l_lwin q = l_lwin l' -> l_latency q = l_latency l' -> lat_inv lo hi q).
    { intros q X1 X2. split; rewrite ?X1, ?X2, ?X.
      - apply Forall_forall. intros x I. apply repeat_spec in I. lia.
      - reflexivity.
      - left; assumption. }
    unfold add_to_leafset. destruct (l_leafset _); [|destruct (e_leafset a)]; apply Z; reflexivity. }
  pose proof (lat_run lo hi ltac:(lia) es2 l (ui_phase _ _ _ _ _ _ W) LI M P) as LI'.
  replace (es1 ++ a :: es2 ++ [u]) with ((es1 ++ a :: es2) ++ [u]) by (rewrite <- app_assoc; reflexivity).
  unfold peer in *. rewrite run_fst_app, run_one, R. unfold step. rewrite K, P. apply lat_update; assumption.
Qed.

(** ** Examples and refutations *)
Definition ev (k : kind) (t : Z) : event := mkEvent k t true true true.
Definition s : Z := 10000000000.
(** created at 1000 s, accepted a second later *)
Definition hello : list event := [ev Other (1000 * s); ev Session (1000 * s); ev NodeToken (1001 * s)].
Definition yes : event := ev Authn (1001 * s).
Ltac accept := split; [unfold s; lia|unfold ping_short; lia|repeat constructor; discriminate|reflexivity|
  vm_compute; repeat split; discriminate].

(** answers half a second after each question, for some minutes *)
Definition answers : list event :=
  concat (map (fun n => [ev Noop ((1040 + 40 * n) * s); ev (Response (s / 2)) ((1041 + 40 * n) * s)]) [0; 1; 2; 3; 4; 5; 6; 7]).
Example C87_kept_ex :
  l_phase (peer (1000 * s) false 0 0 (hello ++ yes :: answers)) = InUse /\
  length (filter (fun o => match snd o with OPing => true | _ => false end) (sent (1000 * s) false 0 0 (hello ++ yes :: answers))) = 5%nat.
Proof. vm_compute. split; reflexivity. Qed.
Example C87_kept_hyp_ex :
  accepted (1000 * s) false 0 0 hello yes answers /\ l_phase (peer (1000 * s) false 0 0 (hello ++ [yes])) = InUse /\
  (attempts (sent (1000 * s) false 0 0 (hello ++ [yes])) <= 15)%nat /\ undisturbed answers /\ answered answers = 19%nat.
Proof.
  split; [accept|]. split; [reflexivity|]. split; [vm_compute; lia|]. split; [|vm_compute; reflexivity].
  repeat constructor; discriminate.
Qed.

Definition silence : list event := map (fun n => ev (Timeout (3 * s)) ((1100 + n) * s)) (map Z.of_nat (seq 0 15)).
Definition checks : list event := [ev Noop (1200 * s); ev Noop (1201 * s); ev Noop (1202 * s)].
Example C87_given_up_ex :
  answered silence = 7%nat /\ l_phase (peer (1000 * s) false 0 0 (hello ++ yes :: silence)) = InUse /\
  l_phase (peer (1000 * s) false 0 0 (hello ++ yes :: silence ++ checks)) = Gone /\
  l_phase (peer (1000 * s) false 0 0 (hello ++ yes :: silence ++ [ev Noop (1200 * s); ev Noop (1201 * s)])) = InUse.
Proof. vm_compute. repeat split; reflexivity. Qed.

(** one timeout less, and the peer stays *)
Example C87_not_given_up_ex :
  l_phase (peer (1000 * s) false 0 0 (hello ++ yes :: tl silence ++ checks)) = InUse.
Proof. vm_compute. reflexivity. Qed.

(** The first answer comes before the averages were ever taken, and the clock has not moved: the "unknown" latency of -1 s
    is put into the window, and the average, by which routes are chosen, is negative. *)
Theorem C87_latency_refuted :
  exists es2 u, accepted (1000 * s) false 0 0 hello yes es2 /\ e_kind u = Other /\ measured 0 s es2 /\
    l_phase (peer (1000 * s) false 0 0 (hello ++ yes :: es2)) = InUse /\
    l_latency (peer (1000 * s) false 0 0 (hello ++ yes :: es2 ++ [u])) < 0.
Proof.
  exists [ev (Response 0) (1002 * s)], (ev Other (1003 * s)).
  split; [accept|]. split; [reflexivity|]. split.
  - apply Forall_cons; [|apply Forall_nil]. intros x [X|X]; try discriminate X; injection X as <-; unfold s; lia.
  - split; vm_compute; reflexivity.
Qed.

(** * C88 *)

(** ** Handshakes to a peer are at least 5 s apart *)
Theorem C88_not_flooded t0 p rnd hs es : apart retry_time OHandshake (sent t0 p rnd hs es).
Proof. change retry_time with HS_TTL. apply handshakes_apart_run. Qed.

(** ** While the peer has not been accepted, the handshake is sent again, 5 s after the last one *)
Theorem C88_tried_again t0 p rnd hs es u :
  0 <= t0 -> not_accepted es -> in_order t0 (es ++ [u]) -> l_phase (peer t0 p rnd hs es) = Setup ->
  e_kind u = Noop -> l_phase (peer t0 p rnd hs (es ++ [u])) = Setup ->
  hs + retry_time < e_now u -> (forall t, In (t, OHandshake) (sent t0 p rnd hs es) -> t + retry_time < e_now u) ->
  In (e_now u, OHandshake) (sent t0 p rnd hs (es ++ [u])).
Proof.
  intros T NA O P K P' H0 H.
  assert (G : forall es l, l_hs_at (fst (run l es)) = l_hs_at l \/ In (l_hs_at (fst (run l es)), OHandshake) (snd (run l es))).
  { clear. induction es as [|e es IH]; intros l; [left; reflexivity|]. rewrite run_fst_cons, run_snd_cons.
    destruct (IH (fst (step l e))) as [A|A]; [|right; apply in_or_app; right; exact A]. rewrite A.
    destruct (step_outs l e) as [(l' & S1 & S2 & S3 & S4)|[[S1 S2]|[S1 [S2 S3]]]].
    - rewrite S3, <- S2, S1. destruct (completion_out (e_now e) l) as [(L & C1 & C2)|[[C1 C2]|[C1 C2]]]; [|left; exact C2..].
      right. rewrite C1, C2. apply in_or_app. left; left; reflexivity.
    - left. rewrite S2. destruct (update_fields e l) as (b & t & E). rewrite E. reflexivity.
    - left. assumption. }
  specialize (G es (fresh t0 p rnd hs)).
  change (fst (run (fresh t0 p rnd hs) es)) with (peer t0 p rnd hs es) in G.
  change (snd (run (fresh t0 p rnd hs) es)) with (sent t0 p rnd hs es) in G.
  assert (L : l_hs_at (peer t0 p rnd hs es) + HS_TTL < e_now u).
  { change retry_time with HS_TTL in *. destruct G as [-> |G]; [exact H0|apply H; exact G]. }
  unfold sent, peer in *. rewrite run_fst_app, run_one in P'. rewrite run_app. apply in_or_app. right. rewrite run_snd_cons. apply in_or_app. left.
  set (q := fst (run (fresh t0 p rnd hs) es)) in *. clearbody q. unfold step in *. rewrite K, P in *.
  destruct (is_invalid u q); [discriminate|]. unfold completion. replace (_ <? _) with true by (symmetry; apply Z.ltb_lt; exact L).
  left; reflexivity.
Qed.

(** ** A peer that is not accepted within 97.2 s is given up at the next check *)
Theorem C88_ends t0 p rnd hs es u :
  0 <= t0 -> not_accepted es -> in_order t0 es -> e_kind u = Noop -> t0 + grace <= e_now u ->
  l_phase (peer t0 p rnd hs (es ++ [u])) = Gone.
Proof.
  intros T NA O K G. pose proof (setup_run es t0 p rnd t0 _ (fresh_setup t0 p rnd hs T) NA T O) as V.
  unfold peer. rewrite run_fst_app, run_one. destruct (si_phase _ _ _ _ _ V) as [P|P]; [|apply gone_step; exact P].
  unfold step. rewrite K, P. unfold is_invalid, out_of_tables. rewrite (si_created _ _ _ _ _ V), (si_leaf _ _ _ _ _ V), (si_table _ _ _ _ _ V).
  replace (e_now u <? t0 + GRACETIME) with false by (change GRACETIME with grace; lia). simpl.
  rewrite Bool.orb_true_r. reflexivity.
Qed.
(** ... and not before *)
Theorem C88_not_before t0 p rnd hs es :
  0 <= t0 -> not_accepted es -> in_order t0 es -> Forall (fun e => e_kind e <> Shutdown /\ e_now e < t0 + grace) es ->
  l_phase (peer t0 p rnd hs es) = Setup.
Proof.
  intros T NA O F.
  assert (G : forall es l t, setup_inv t0 p rnd t l -> l_phase l = Setup -> 0 <= t -> not_accepted es -> in_order t es ->
     Forall (fun e => e_kind e <> Shutdown /\ e_now e < t0 + grace) es -> l_phase (fst (run l es)) = Setup).
  { clear. induction es as [|e es IH]; intros l t V P T NA O F; [assumption|].
    inversion NA; inversion F; subst. destruct O as [O1 O2]. rewrite run_fst_cons. destruct H5 as [F1 F2].
    apply (IH _ (e_now e)); auto; try lia; [eapply setup_step; eauto|].
    pose proof (completion_fields (e_now e) l) as C. destruct C as [C _]. rewrite P in C.
    unfold step. rewrite P. destruct (e_kind e) eqn:K; simpl; try exact C; try congruence.
    - unfold is_invalid. rewrite (si_created _ _ _ _ _ V). replace (e_now e <? t0 + GRACETIME) with true by (change GRACETIME with grace; lia). exact C.
    - unfold update_token. destruct (_ && _); simpl; assumption. }
  apply (G es (fresh t0 p rnd hs) t0); auto. apply fresh_setup; assumption.
Qed.

(** A peer that was accepted and answers everything is nevertheless given up when it took more than 15 attempts to connect:
    the number of attempts is never forgotten, and is looked at again when the grace time is over. *)
Definition slow_hello : list event := ev Session (1000 * s) ::
  concat (map (fun n => [ev Noop ((1000 + 6 * n) * s); ev Noop ((1001 + 6 * n) * s)]) [0; 1; 2; 3; 4; 5; 6; 7]).
Definition late_yes : event := ev Authn (1044 * s).
Definition good_answers : list event :=
  [ev Noop (1045 * s); ev (Response (s / 2)) (1046 * s); ev Noop (1090 * s); ev (Response (s / 2)) (1091 * s)].
Theorem C88_accepted_late_refuted :
  exists es1 a es2, accepted (1000 * s) false 0 0 es1 a es2 /\ l_phase (peer (1000 * s) false 0 0 (es1 ++ [a])) = InUse /\
    e_leafset a = true /\ undisturbed es2 /\ keeps_answering es2 /\ outcomes es2 = [true; true] /\
    l_phase (peer (1000 * s) false 0 0 (es1 ++ a :: es2)) = Gone.
Proof.
  exists slow_hello, late_yes, (good_answers ++ [ev Noop (1098 * s)]).
  split; [accept|]. split; [vm_compute; reflexivity|]. split; [reflexivity|].
  split; [repeat constructor; discriminate|]. split; [|split; vm_compute; reflexivity].
  intros h rest E. unfold good_answers in E. cbn [app] in E.
  do 5 (destruct h as [|? h]; [vm_compute; lia|injection E as <- E]). destruct h; [vm_compute; lia|discriminate].
Qed.

Example C88_tried_again_ex :
  map snd (sent (1000 * s) false 0 0 [ev Noop (1000 * s); ev Noop (1003 * s); ev Noop (1006 * s); ev Noop (1012 * s)]) =
  [OHandshake; OHandshake; OHandshake] /\
  l_phase (peer (1000 * s) false 0 0 [ev Noop (1000 * s); ev Noop (1006 * s); ev Noop (1098 * s)]) = Gone.
Proof. vm_compute. split; reflexivity. Qed.

(** into the routing table after an answer, out of it after a failure *)
Example C87_table_ex :
  let es := [ev (Response (s / 2)) (1031 * s); ev Noop (1040 * s)] in
  l_table (peer (1000 * s) false 0 0 (hello ++ yes :: es)) = true /\
  l_table (peer (1000 * s) false 0 0 (hello ++ yes :: es ++ [ev (Timeout (3 * s)) (1041 * s); ev Other (1042 * s)])) = false /\
  l_table (peer (1000 * s) true 0 0 (hello ++ yes :: es)) = false.
Proof. vm_compute. repeat split; reflexivity. Qed.
(** the next question comes 94.2 s after the one before, at the latest *)
Example C87_asked_again_ex :
  let es := [ev Noop (1040 * s); ev (Response (s / 2)) (1041 * s)] in
  In (1040 * s, OPing) (sent (1000 * s) false 0 0 (hello ++ yes :: es)) /\
  In (1135 * s, OPing) (sent (1000 * s) false 0 0 (hello ++ yes :: es ++ [ev Noop (1135 * s)])) /\
  l_phase (peer (1000 * s) false 0 0 (hello ++ yes :: es ++ [ev Noop (1135 * s)])) = InUse.
Proof. vm_compute. repeat split; auto 10. Qed.

Print Assumptions C87_average.
Print Assumptions C87_kept_partial.
Print Assumptions C87_given_up.
Print Assumptions C87_silence_counts.
Print Assumptions C87_short_silence_kept.
Print Assumptions C87_asked_again.
Print Assumptions C87_not_flooded.
Print Assumptions C87_leaves_once.
Print Assumptions C87_table_out.
Print Assumptions C87_table_in.
Print Assumptions C87_latency_partial.
Print Assumptions C87_latency_refuted.
Print Assumptions C88_not_flooded.
Print Assumptions C88_tried_again.
Print Assumptions C88_ends.
Print Assumptions C88_not_before.
Print Assumptions C88_accepted_late_refuted.
