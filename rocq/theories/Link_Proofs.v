From Verif Require Import Base Link_Model Link_Spec.

(** * Runs *)
Lemma run_app : forall es1 es2 l,
  run l (es1 ++ es2) = (fst (run (fst (run l es1)) es2), snd (run l es1) ++ snd (run (fst (run l es1)) es2)).
Proof.
  induction es1 as [|e es1 IH]; intros; simpl.
  - destruct (run l es2); reflexivity.
  - destruct (step l e) as [l1 o]. rewrite IH. destruct (run l1 es1) as [l2 os]; simpl. rewrite app_assoc. reflexivity.
Qed.
Lemma run_cons : forall e es l,
  run l (e :: es) = (fst (run (fst (step l e)) es), map (pair (e_now e)) (snd (step l e)) ++ snd (run (fst (step l e)) es)).
Proof. intros; simpl. destruct (step l e); simpl. destruct (run l0 es); reflexivity. Qed.
Lemma run_fst_app es1 es2 l : fst (run l (es1 ++ es2)) = fst (run (fst (run l es1)) es2).
Proof. rewrite run_app; reflexivity. Qed.
Lemma run_fst_cons e es l : fst (run l (e :: es)) = fst (run (fst (step l e)) es).
Proof. rewrite run_cons; reflexivity. Qed.
Lemma run_snd_cons e es l : snd (run l (e :: es)) = map (pair (e_now e)) (snd (step l e)) ++ snd (run (fst (step l e)) es).
Proof. rewrite run_cons; reflexivity. Qed.
Lemma run_one e l : fst (run l [e]) = fst (step l e).
Proof. rewrite run_fst_cons; reflexivity. Qed.

Lemma in_order_app : forall es1 es2 t, in_order t (es1 ++ es2) -> in_order t es1.
Proof. induction es1; simpl; intros; [exact I|]. destruct H; split; eauto. Qed.
Lemma in_order_weak : forall es t t', t' <= t -> in_order t es -> in_order t' es.
Proof. destruct es; simpl; intros; [exact I|]. destruct H0; split; [lia|assumption]. Qed.
(** the last time *)
Fixpoint last_time (t : Z) (es : list event) : Z := match es with [] => t | e :: es => last_time (e_now e) es end.
Lemma in_order_tail : forall es1 es2 t, in_order t (es1 ++ es2) -> in_order (last_time t es1) es2.
Proof. induction es1; simpl; intros; [assumption|]. destruct H; eauto. Qed.
Lemma last_time_ge : forall es t, in_order t es -> t <= last_time t es.
Proof. induction es; simpl; intros; [lia|]. destruct H as [A B]. specialize (IHes _ B). lia. Qed.
Lemma last_time_app : forall es1 es2 t, last_time t (es1 ++ es2) = last_time (last_time t es1) es2.
Proof. induction es1; simpl; auto. Qed.

(** * Steps *)
Ltac cases := repeat match goal with
  | |- context [match ?x with _ => _ end] => let E := fresh "E" in destruct x eqn:E; simpl in *; try discriminate; try reflexivity
  end.

Lemma gone_step l e : l_phase l = Gone -> l_phase (fst (step l e)) = Gone.
Proof. intros P. unfold step. destruct (e_kind e); simpl; rewrite P; try reflexivity; assumption. Qed.
Lemma gone_run es : forall l, l_phase l = Gone -> l_phase (fst (run l es)) = Gone.
Proof. induction es; intros; [assumption|]. rewrite run_fst_cons. apply IHes, gone_step; assumption. Qed.

(** what an update does to each field *)
Lemma update_join_table_fields e l :
  exists b, update_join_table e l = w_table b l.
Proof.
  unfold update_join_table. cases; try (exists (l_table l); destruct l; reflexivity). exists true; reflexivity.
Qed.
Lemma update_leave_table_fields e l :
  exists b, update_leave_table e l = w_table b l.
Proof.
  unfold update_leave_table. cases; try (exists (l_table l); destruct l; reflexivity). exists false; reflexivity.
Qed.
Lemma update_ping_fields now l :
  exists t, fst (update_ping now l) = w_next_ping t l.
Proof.
  unfold update_ping. cases; try (exists (l_next_ping l); destruct l; reflexivity); eexists; reflexivity.
Qed.
Lemma update_fields e l :
  exists b t, fst (update e l) = w_table b (w_next_ping t (averages l)).
Proof.
  unfold update. destruct (left_net (averages l)).
  - exists (l_table l), (l_next_ping l). destruct l; reflexivity.
  - destruct (update_join_table_fields e (averages l)) as [b1 E1]. rewrite E1.
    destruct (update_ping_fields (e_now e) (w_table b1 (averages l))) as [t E2].
    destruct (update_ping _ _) as [l2 o]; simpl in E2 |- *. subst l2.
    destruct (update_leave_table_fields e (w_next_ping t (w_table b1 (averages l)))) as [b2 E3].
    exists b2, t. rewrite E3. reflexivity.
Qed.

Lemma completion_fields now l :
  let l' := fst (completion now l) in
  l_phase l' = l_phase l /\ l_created l' = l_created l /\ l_passive l' = l_passive l /\ l_leave_at l' = l_leave_at l /\
  l_next_ping l' = l_next_ping l /\ l_table l' = l_table l /\ l_leafset l' = l_leafset l /\
  l_swin l' = l_swin l /\ l_sidx l' = l_sidx l /\ l_avg2 l' = l_avg2 l /\ l_lwin l' = l_lwin l /\ l_lidx l' = l_lidx l /\
  l_latency l' = l_latency l /\ (l_join_at l' = l_join_at l \/ l_join_at l' = now).
Proof. unfold completion. cases; repeat split; auto. Qed.

(** from in use, the phase is in use or gone *)
Lemma inuse_step l e : l_phase l = InUse -> l_phase (fst (step l e)) = InUse \/ l_phase (fst (step l e)) = Gone.
Proof.
  intros P. unfold step. destruct (e_kind e); rewrite ?P; simpl; auto;
  destruct (update_fields e l) as (b' & t & U); try (rewrite U; simpl; auto; fail).
  destruct (has_to_leave _ _); [simpl; auto|]. destruct (is_invalid e l); [simpl; auto|]. rewrite U; simpl; auto.
Qed.
Lemma inuse_prefix es1 es2 l : l_phase l = InUse -> l_phase (fst (run l (es1 ++ es2))) = InUse ->
  l_phase (fst (run l es1)) = InUse.
Proof.
  intros P Q. rewrite run_fst_app in Q.
  assert (l_phase (fst (run l es1)) = InUse \/ l_phase (fst (run l es1)) = Gone) as [A|A]; [|assumption|].
  - clear Q. revert l P. induction es1 as [|e es1 IH]; intros; [auto|]. rewrite run_fst_cons.
    destruct (inuse_step l e P) as [A|A]; [apply IH; assumption|right; apply gone_run; assumption].
  - rewrite (gone_run es2 _ A) in Q. discriminate.
Qed.

(** * Setup: nothing but the marks of connecting changes *)
Record setup_inv (t0 : Z) (p : bool) (rnd t : Z) (l : link) : Prop := {
  si_phase : l_phase l = Setup \/ l_phase l = Gone;
  si_created : l_created l = t0; si_passive : l_passive l = p;
  si_leave : l_leave_at l = 0; si_join : 0 <= l_join_at l <= t;
  si_next : l_next_ping l = t0 + rnd; si_table : l_table l = false; si_leaf : l_leafset l = false;
  si_swin : l_swin l = alternate WINDOW false; si_sidx : l_sidx l = 0%nat; si_avg : l_avg2 l = 31;
  si_lwin : l_lwin l = repeat (SECOND / 100) WINDOW; si_lidx : l_lidx l = 0%nat; si_lat : l_latency l = - SECOND }.

Lemma setup_step t0 p rnd t l e : setup_inv t0 p rnd t l -> e_kind e <> Authn -> 0 <= t <= e_now e ->
  setup_inv t0 p rnd (e_now e) (fst (step l e)).
Proof.
  intros [] NA T.
  assert (C : l_phase l = Setup -> setup_inv t0 p rnd (e_now e) (fst (completion (e_now e) l))).
  { intros P. destruct (completion_fields (e_now e) l) as (A1&A2&A3&A4&A5&A6&A7&A8&A9&A10&A11&A12&A13&A14).
    split; try (left; congruence); try congruence. destruct A14 as [A14|A14]; rewrite A14; lia. }
  assert (N : setup_inv t0 p rnd (e_now e) l) by (split; auto; lia).
  unfold step. destruct (e_kind e) eqn:K; try congruence; destruct si_phase0 as [P|P]; rewrite ?P; simpl; auto;
    try (split; simpl; auto; lia).
  - destruct (is_invalid e l); simpl; auto. split; simpl; auto; lia.
  - unfold update_token. cases; split; simpl; auto; lia.
Qed.
Lemma setup_run : forall es t0 p rnd t l, setup_inv t0 p rnd t l -> not_accepted es -> 0 <= t -> in_order t es ->
  setup_inv t0 p rnd (last_time t es) (fst (run l es)).
Proof.
  induction es as [|e es IH]; intros t0 p rnd t l V NA T O; [assumption|].
  rewrite run_fst_cons. inversion NA; subst. destruct O as [O1 O2]. simpl.
  apply IH; auto; [|lia]. eapply setup_step; eauto.
Qed.
Lemma fresh_setup t0 p rnd hs : 0 <= t0 -> setup_inv t0 p rnd t0 (fresh t0 p rnd hs).
Proof. intros; split; simpl; auto; lia. Qed.

(** * In use *)
Definition rotated {A} (i : nat) (w : list A) : list A := skipn (S i) w ++ firstn (S i) w.

Lemma rotated_upd {A} (w : list A) i b : length w = 31%nat -> (i < 31)%nat ->
  rotated (next_index i) (upd w (next_index i) b) = tl (rotated i w) ++ [b].
Proof.
  intros L I. unfold rotated, next_index. change WINDOW with 31%nat.
  destruct (Nat.eqb_spec (S i) 31).
  - rewrite e. rewrite (skipn_all2 w), (firstn_all2 w) by lia. simpl.
    destruct w as [|x w]; [discriminate|]. reflexivity.
  - assert (S i < length w)%nat by lia. clear L n I. set (k := S i) in *. clearbody k. clear i.
    revert k H. induction w as [|x w IH]; intros k H; [simpl in H; lia|].
    destruct k as [|k].
    + simpl. rewrite app_nil_r. reflexivity.
    + specialize (IH k ltac:(simpl in H; lia)). simpl in IH |- *.
      revert IH. 
      assert (forall (w : list A) k, (k < length w)%nat -> skipn (S k) (upd w k b) = skipn (S k) w) as S1.
      { clear. induction w as [|x w IH]; intros k H; [simpl in H; lia|]. destruct k; simpl; [reflexivity|]. apply IH. simpl in H; lia. }
      assert (forall (w : list A) k, (k < length w)%nat -> firstn (S k) (upd w k b) = firstn k w ++ [b]) as S2.
      { clear. induction w as [|x w IH]; intros k H; [simpl in H; lia|]. destruct k; [reflexivity|].
        change (upd (x :: w) (S k) b) with (x :: upd w k b). simpl. f_equal. apply IH. simpl in H; lia. }
      assert (exists y, skipn k w = y :: skipn (S k) w) as [y S3].
      { clear - H. simpl in H. assert (k < length w)%nat by lia. clear H; rename H0 into H; revert k H.
        induction w as [|x0 w IH]; intros k H; [simpl in H; lia|]. destruct k; [eexists; reflexivity|]. simpl. apply IH. simpl in H; lia. }
      intros _. 
      change (match upd w k b with [] => [] | _ :: l => skipn k l end) with (skipn (S k) (upd w k b)).
      change (match upd w k b with [] => [] | a :: l => a :: firstn k l end) with (firstn (S k) (upd w k b)).
      rewrite S1, S2 by (simpl in H; lia). rewrite S3. simpl. rewrite <- app_assoc. reflexivity.
Qed.

Lemma next_index_lt i : (i < 31)%nat -> (next_index i < 31)%nat.
Proof. unfold next_index; change WINDOW with 31%nat. destruct (Nat.eqb_spec (S i) 31); lia. Qed.

Lemma nth_rotated {A} (w : list A) i d : (i < length w)%nat -> nth i w d = last (rotated i w) d.
Proof.
  intros I. unfold rotated.
  assert (firstn (S i) w = firstn i w ++ [nth i w d]) as ->.
  { revert w I. induction i; intros w H; destruct w as [|x w]; simpl in H; try lia; [reflexivity|].
    simpl. f_equal. apply IHi. lia. }
  rewrite app_assoc, last_last. reflexivity.
Qed.

Lemma ones_count w : ones w = Z.of_nat (count_occ Bool.bool_dec w true).
Proof.
  unfold ones. f_equal. induction w as [|[] w IH]; simpl; [reflexivity| |assumption]. rewrite IH; reflexivity.
Qed.
Lemma count_rotated i w : count_occ Bool.bool_dec (rotated i w) true = count_occ Bool.bool_dec w true.
Proof.
  unfold rotated. rewrite count_occ_app. rewrite <- (firstn_skipn (S i) w) at 3. rewrite count_occ_app. lia.
Qed.

Lemma outcomes_app a b : outcomes (a ++ b) = outcomes a ++ outcomes b.
Proof. induction a as [|e a IH]; simpl; [reflexivity|]. destruct (e_kind e); simpl; rewrite ?IH; reflexivity. Qed.

Lemma last31_snoc h b : (31 <= length h)%nat -> last31 (h ++ [b]) = tl (last31 h) ++ [b].
Proof.
  intros L. unfold last31. rewrite app_length. simpl length.
  replace (length h + 1 - 31)%nat with (S (length h - 31)) by lia.
  set (k := (length h - 31)%nat). assert (k < length h)%nat by (unfold k; lia). clearbody k. clear L.
  revert k H. induction h as [|x h IH]; intros k H; [simpl in H; lia|].
  destruct k; [reflexivity|]. simpl. simpl in IH. rewrite <- IH by (simpl in H; lia). reflexivity.
Qed.
Lemma last31_length h : (31 <= length h)%nat -> length (last31 h) = 31%nat.
Proof. intros; unfold last31. rewrite skipn_length. lia. Qed.
Lemma presumed_length : length presumed = 31%nat. Proof. reflexivity. Qed.
Lemma history_length es : (31 <= length (presumed ++ outcomes es))%nat.
Proof. rewrite app_length, presumed_length. lia. Qed.

Lemma last31_step es e : last31 (presumed ++ outcomes (es ++ [e])) =
  match e_kind e with
  | Response _ => tl (last31 (presumed ++ outcomes es)) ++ [true]
  | Timeout _ => tl (last31 (presumed ++ outcomes es)) ++ [false]
  | _ => last31 (presumed ++ outcomes es)
  end.
Proof.
  rewrite outcomes_app. cbn [outcomes]. destruct (e_kind e); rewrite ?app_nil_r; try reflexivity;
  rewrite app_assoc, last31_snoc by apply history_length; reflexivity.
Qed.

Record use_inv (t0 : Z) (p : bool) (tj t : Z) (h : list event) (l : link) : Prop := {
  ui_phase : l_phase l = InUse;
  ui_created : l_created l = t0; ui_passive : l_passive l = p;
  ui_join : 0 <= l_join_at l <= tj; ui_leave : 0 <= l_leave_at l <= t; ui_tj : tj <= t;
  ui_len : length (l_swin l) = 31%nat; ui_idx : (l_sidx l < 31)%nat;
  ui_win : rotated (l_sidx l) (l_swin l) = last31 (presumed ++ outcomes h) }.

Lemma upgrade_use t0 p rnd t l e : setup_inv t0 p rnd t l -> l_phase l = Setup -> e_kind e = Authn -> 0 <= t <= e_now e ->
  use_inv t0 p (e_now e) (e_now e) [] (fst (step l e)).
Proof.
  intros [] P K T. unfold step. rewrite K, P. unfold upgrade.
  destruct (completion_fields (e_now e) l) as (A1&A2&A3&A4&A5&A6&A7&A8&A9&A10&A11&A12&A13&A14).
  destruct (completion (e_now e) l) as [l' o]; simpl in *.
  unfold add_to_leafset; simpl.
  assert (U : forall b, use_inv t0 p (e_now e) (e_now e) [] (w_leafset b (w_phase InUse (w_joined true l')))).
  { intros b. split; simpl; try congruence; try lia; try (rewrite A9, si_sidx0; lia).
    - rewrite A8, si_swin0; reflexivity.
    - rewrite A8, A9, si_swin0, si_sidx0. reflexivity. }
  pose proof (U (l_leafset l')) as E. replace (w_leafset (l_leafset l') _) with (w_phase InUse (w_joined true l')) in E by (destruct l'; reflexivity).
  destruct (l_leafset l'); [exact E|]. destruct (e_leafset e); [apply U|exact E].
Qed.

Lemma use_step t0 p tj t h l e : use_inv t0 p tj t h l -> t <= e_now e -> l_phase (fst (step l e)) = InUse ->
  use_inv t0 p tj (e_now e) (h ++ [e]) (fst (step l e)).
Proof.
  intros [] T P'. pose proof (last31_step h e) as LS.
  assert (UP : True -> last31 (presumed ++ outcomes (h ++ [e])) = last31 (presumed ++ outcomes h) ->
     forall l', l_phase l' = InUse -> l_created l' = l_created l -> l_passive l' = l_passive l ->
     l_join_at l' = l_join_at l -> (l_leave_at l' = l_leave_at l \/ l_leave_at l' = e_now e) ->
     l_swin l' = l_swin l -> l_sidx l' = l_sidx l ->
     use_inv t0 p tj (e_now e) (h ++ [e]) l').
  { intros _ L l0 A1 A2 A3 A4 A5 A6 A7. split; try congruence; try lia. }
  unfold step in *. destruct (e_kind e) eqn:K; rewrite ?ui_phase0 in *; cbn [fst] in P' |- *;
    try (apply UP; [exact I|exact LS|simpl; auto..]; fail);
    try (apply UP; [exact I|exact LS|destruct (update_fields e l) as (b' & t' & U); rewrite U; simpl; auto..]; fail).
  - split; cbn [fst handle_response handle_timeout w_lwin w_swin l_phase l_created l_passive l_join_at l_leave_at l_swin l_sidx]; try assumption; try lia.
    + rewrite upd_length; assumption.
    + apply next_index_lt; assumption.
    + rewrite rotated_upd by assumption. rewrite ui_win0, LS. reflexivity.
  - split; cbn [fst handle_response handle_timeout w_lwin w_swin l_phase l_created l_passive l_join_at l_leave_at l_swin l_sidx]; try assumption; try lia.
    + rewrite upd_length; assumption.
    + apply next_index_lt; assumption.
    + rewrite rotated_upd by assumption. rewrite ui_win0, LS. reflexivity.
  - destruct (has_to_leave (e_now e) l); [apply UP; [exact I|exact LS|simpl; auto..]|].
    destruct (is_invalid e l); [discriminate|].
    apply UP; [exact I|exact LS|destruct (update_fields e l) as (b' & t' & U); rewrite U; simpl; auto..].
Qed.

Lemma use_run : forall es t0 p tj t h l, use_inv t0 p tj t h l -> in_order t es -> l_phase (fst (run l es)) = InUse ->
  use_inv t0 p tj (last_time t es) (h ++ es) (fst (run l es)).
Proof.
  induction es as [|e es IH]; intros t0 p tj t h l V O P; [rewrite app_nil_r; assumption|].
  destruct O as [O1 O2]. 
  assert (Q : l_phase (fst (step l e)) = InUse).
  { rewrite <- run_one. apply (inuse_prefix [e] es); [apply V|exact P]. }
  rewrite run_fst_cons in *. simpl. replace (h ++ e :: es) with ((h ++ [e]) ++ es) by (rewrite <- app_assoc; reflexivity).
  apply IH; auto. eapply use_step; eauto.
Qed.

(** The link of an accepted peer. *)
Lemma not_inuse_in_setup t0 p rnd t l : setup_inv t0 p rnd t l -> l_phase l <> InUse.
Proof. intros [] E. destruct si_phase0; congruence. Qed.

Lemma accepted_split t0 p rnd hs es1 a es2 : accepted t0 p rnd hs es1 a es2 -> l_phase (peer t0 p rnd hs (es1 ++ a :: es2)) = InUse ->
  exists l, l = peer t0 p rnd hs (es1 ++ [a]) /\
  setup_inv t0 p rnd (last_time t0 es1) (peer t0 p rnd hs es1) /\ l_phase (peer t0 p rnd hs es1) = Setup /\
  l = fst (step (peer t0 p rnd hs es1) a) /\
  use_inv t0 p (e_now a) (e_now a) [] l /\ last_time t0 es1 <= e_now a /\ in_order (e_now a) es2 /\
  peer t0 p rnd hs (es1 ++ a :: es2) = fst (run l es2) /\
  sent t0 p rnd hs (es1 ++ a :: es2) = sent t0 p rnd hs (es1 ++ [a]) ++ snd (run l es2).
Proof.
  intros [A1 A2 A3 A4 A5] P.
  pose proof (in_order_app _ _ _ A5) as O1. pose proof (in_order_tail _ _ _ A5) as O2. destruct O2 as [O2 O3].
  pose proof (setup_run es1 t0 p rnd t0 _ (fresh_setup t0 p rnd hs A1) A3 A1 O1) as V.
  pose proof (last_time_ge _ _ O1) as T.
  change (fst (run (fresh t0 p rnd hs) es1)) with (peer t0 p rnd hs es1) in V.
  assert (Q : l_phase (peer t0 p rnd hs es1) = Setup).
  { destruct (si_phase _ _ _ _ _ V) as [Q|Q]; [assumption|]. exfalso.
    unfold peer in P. rewrite run_fst_app in P. rewrite gone_run in P; [discriminate|exact Q]. }
  exists (peer t0 p rnd hs (es1 ++ [a])). split; [reflexivity|]. split; [assumption|]. split; [assumption|].
  assert (E : peer t0 p rnd hs (es1 ++ [a]) = fst (step (peer t0 p rnd hs es1) a)).
  { unfold peer. rewrite run_fst_app, run_one. reflexivity. }
  split; [exact E|]. split; [rewrite E; eapply upgrade_use; eauto; lia|]. split; [exact O2|]. split; [exact O3|].
  replace (es1 ++ a :: es2) with ((es1 ++ [a]) ++ es2) by (rewrite <- app_assoc; reflexivity).
  split; [unfold peer; apply run_fst_app|unfold sent, peer; rewrite run_app; reflexivity].
Qed.

Lemma answered_ones t0 p tj t h l : use_inv t0 p tj t h l -> ones (l_swin l) = Z.of_nat (answered h).
Proof.
  intros []. rewrite ones_count. f_equal. unfold answered. rewrite <- ui_win0. symmetry. apply count_rotated.
Qed.
Lemma use_last t0 p tj t h l : use_inv t0 p tj t h l -> last_outcome l = last (presumed ++ outcomes h) false.
Proof.
  intros []. unfold last_outcome. rewrite nth_rotated by lia. rewrite ui_win0.
  generalize (history_length h). generalize (presumed ++ outcomes h). intros x L. unfold last31.
  assert (length x - 31 < length x)%nat as H by lia. revert H. generalize (length x - 31)%nat. clear.
  intros k H. revert k H. induction x as [|y x IH]; intros k H; [simpl in H; lia|].
  destruct k; [reflexivity|]. simpl skipn. rewrite IH by (simpl in H; lia). destruct x; [simpl in H; lia|reflexivity].
Qed.

(** * A peer that answers is kept *)
Record kept_inv (l : link) : Prop := {
  ki_att : 0 <= l_attempts l <= 15; ki_leaf : l_leafset l = true; ki_leave : l_leave_at l = 0; ki_avg : 16 <= l_avg2 l <= 62 }.

Lemma count_le w : ones w <= Z.of_nat (length w).
Proof. unfold ones. induction w as [|[] w IH]; cbn [filter length] in *; lia. Qed.

Definition updating (k : kind) : bool := match k with Noop | Other | Authn | NodeToken => true | _ => false end.

Lemma kept_noop t0 p tj t h l e : use_inv t0 p tj t h l -> kept_inv l -> e_token e = true ->
  has_to_leave (e_now e) l = false /\ is_invalid e l = false.
Proof.
  intros [] [] T. unfold has_to_leave, is_invalid, left_net, out_of_tables, bad. rewrite ki_leaf0, ki_leave0, T. simpl.
  destruct (e_now e + NP_PI <? _); destruct (e_now e <? _);
  destruct (l_join_at l <? 0) eqn:A; try lia; destruct (15 <? l_attempts l) eqn:B; try lia;
  destruct (4 * l_avg2 l <? 62) eqn:C; try lia; auto.
Qed.
Lemma kept_step_update t0 p tj t h l e : use_inv t0 p tj t h l -> kept_inv l -> updating (e_kind e) = true -> e_token e = true ->
  step l e = update e l.
Proof.
  intros V K U T. destruct (kept_noop _ _ _ _ _ _ e V K T) as [A B]. unfold step. rewrite (ui_phase _ _ _ _ _ _ V).
  destruct (e_kind e); try discriminate U; rewrite ?A, ?B; reflexivity.
Qed.
Lemma update_out e l : snd (update e l) = [] \/ snd (update e l) = [OPing].
Proof.
  unfold update. destruct (left_net _); [auto|]. unfold update_ping. destruct (above_bad _ && _); auto.
Qed.

Lemma kept_step t0 p tj t h l e : use_inv t0 p tj t h l -> kept_inv l -> (8 <= answered h)%nat ->
  e_kind e <> Shutdown /\ e_kind e <> Leafset false /\ e_token e = true ->
  kept_inv (fst (step l e)) /\ l_phase (fst (step l e)) = InUse /\ (snd (step l e) = [] \/ snd (step l e) = [OPing]).
Proof.
  intros V K A (S1 & S2 & S3). destruct (updating (e_kind e)) eqn:U.
  - rewrite (kept_step_update _ _ _ _ _ _ _ V K U S3). split; [|split].
    + destruct (update_fields e l) as (b & t' & E). rewrite E. pose proof (answered_ones _ _ _ _ _ _ V) as O.
      pose proof (count_le (l_swin l)). destruct V, K. split; simpl; auto. rewrite O in *. lia.
    + destruct (update_fields e l) as (b & t' & E). rewrite E. simpl. apply V.
    + apply update_out.
  - pose proof (ui_phase _ _ _ _ _ _ V) as P. destruct K. unfold step.
    destruct (e_kind e) eqn:EK; try discriminate U; rewrite ?P; simpl; try congruence;
      (split; [split; simpl; auto|auto]).
    destruct b; congruence.
Qed.

Lemma kept_run : forall es t0 p tj t h l, use_inv t0 p tj t h l -> kept_inv l -> in_order t es -> undisturbed es ->
  (forall h' rest, h ++ es = h' ++ rest -> (8 <= answered h')%nat) ->
  kept_inv (fst (run l es)) /\ l_phase (fst (run l es)) = InUse /\ leaves (snd (run l es)) = 0%nat.
Proof.
  induction es as [|e es IH]; intros t0 p tj t h l V K O U A; [split; [assumption|split; [apply V|reflexivity]]|].
  inversion U; subst. destruct O as [O1 O2].
  destruct (kept_step _ _ _ _ h _ _ V K (A h (e :: es) eq_refl) H1) as (K' & P' & S').
  pose proof (use_step _ _ _ _ _ _ _ V O1 P') as V'.
  destruct (IH _ _ _ _ _ _ V' K' O2 H2) as (X & Y & Z).
  { intros h' rest E. apply (A h' rest). rewrite <- app_assoc in E. exact E. }
  rewrite run_fst_cons, run_snd_cons. split; [assumption|]. split; [assumption|].
  unfold leaves in *. rewrite filter_app, app_length, Z. destruct S' as [-> | ->]; reflexivity.
Qed.

Lemma completion_attempts now l : 0 <= l_attempts l ->
  0 <= l_attempts (fst (completion now l)) <= l_attempts l + Z.of_nat (length (filter (fun o => match o with OHandshake | OJoin => true | _ => false end) (snd (completion now l)))).
Proof.
  intros A. unfold completion. destruct (l_hs_at l + HS_TTL <? now); [|destruct (_ && _)]; simpl; try lia;
  pose proof (u8_range (l_attempts l + 1)); unfold u8 in *; pose proof (Z.mod_le (l_attempts l + 1) 256); lia.
Qed.
Lemma attempts_map t os : attempts (map (pair t) os) = length (filter (fun o => match o with OHandshake | OJoin => true | _ => false end) os).
Proof. unfold attempts. induction os as [|[] os IH]; simpl in *; congruence. Qed.
Lemma attempts_step l e : 0 <= l_attempts l ->
  0 <= l_attempts (fst (step l e)) <= l_attempts l + Z.of_nat (attempts (map (pair (e_now e)) (snd (step l e)))).
Proof.
  intros A. rewrite attempts_map. pose proof (completion_attempts (e_now e) l A) as C.
  unfold step. destruct (e_kind e); simpl; try lia; destruct (l_phase l) eqn:P; simpl; try lia; try exact C;
    try (destruct (update_fields e l) as (b' & t' & E); rewrite E; simpl; lia).
  - destruct (is_invalid e l); [simpl; lia|exact C].
  - destruct (has_to_leave _ _); [simpl; lia|]. destruct (is_invalid e l); [simpl; lia|].
    destruct (update_fields e l) as (b' & t' & E); rewrite E; simpl; lia.
  - unfold upgrade. destruct (completion (e_now e) l) as [l' o]; simpl in *. unfold add_to_leafset; simpl. cases; lia.
  - unfold update_token. cases; lia.
Qed.
Lemma attempts_run : forall es l, 0 <= l_attempts l ->
  0 <= l_attempts (fst (run l es)) <= l_attempts l + Z.of_nat (attempts (snd (run l es))).
Proof.
  induction es as [|e es IH]; intros l A; [simpl; lia|]. rewrite run_fst_cons, run_snd_cons.
  pose proof (attempts_step l e A) as B. specialize (IH (fst (step l e)) ltac:(lia)).
  unfold attempts in *. rewrite filter_app, app_length. lia.
Qed.

Lemma accepted_kept t0 p rnd hs es1 a es2 :
  accepted t0 p rnd hs es1 a es2 -> l_phase (peer t0 p rnd hs (es1 ++ [a])) = InUse ->
  e_leafset a = true -> (attempts (sent t0 p rnd hs (es1 ++ [a])) <= 15)%nat ->
  exists l, l = peer t0 p rnd hs (es1 ++ [a]) /\ use_inv t0 p (e_now a) (e_now a) [] l /\ kept_inv l /\ in_order (e_now a) es2 /\
    peer t0 p rnd hs (es1 ++ a :: es2) = fst (run l es2) /\
    sent t0 p rnd hs (es1 ++ a :: es2) = sent t0 p rnd hs (es1 ++ [a]) ++ snd (run l es2) /\
    l_next_ping l = t0 + rnd /\ (forall t, ~ In (t, OPing) (sent t0 p rnd hs (es1 ++ [a]))) /\ leaves (sent t0 p rnd hs (es1 ++ [a])) = 0%nat.
Proof.
  intros A P L N.
  assert (A' : accepted t0 p rnd hs es1 a []).
  { destruct A as [B1 B2 B3 B4 B5]. split; auto. apply (in_order_app (es1 ++ [a]) es2). rewrite <- app_assoc. exact B5. }
  destruct (accepted_split _ _ _ _ _ _ _ A' P) as (l & E & V & Q & S1 & W & T & _ & _ & _).
  exists l. split; [assumption|]. split; [assumption|].
  split.
  { pose proof (attempts_run (es1 ++ [a]) (fresh t0 p rnd hs) ltac:(simpl; lia)) as R.
    change (fst (run (fresh t0 p rnd hs) (es1 ++ [a]))) with (peer t0 p rnd hs (es1 ++ [a])) in R.
    change (snd (run (fresh t0 p rnd hs) (es1 ++ [a]))) with (sent t0 p rnd hs (es1 ++ [a])) in R.
    rewrite <- E in R. simpl in R.
    split; [lia|..]; subst l; rewrite S1; unfold step; rewrite (acc_a _ _ _ _ _ _ _ A), Q; unfold upgrade;
    destruct (completion_fields (e_now a) (peer t0 p rnd hs es1)) as (A1&A2&A3&A4&A5&A6&A7&A8&A9&A10&A11&A12&A13&A14);
    destruct (completion (e_now a) _) as [l' o]; cbn [fst] in *; unfold add_to_leafset; cbn [fst l_leafset w_phase w_joined];
    rewrite A7, (si_leaf _ _ _ _ _ V), L; simpl; auto.
    - rewrite A4. apply V.
    - rewrite A10, (si_avg _ _ _ _ _ V). lia. }
  split. { pose proof (in_order_tail _ _ _ (acc_time _ _ _ _ _ _ _ A)) as O; destruct O; assumption. }
  replace (es1 ++ a :: es2) with ((es1 ++ [a]) ++ es2) by (rewrite <- app_assoc; reflexivity).
  split; [unfold peer; rewrite run_fst_app; subst l; reflexivity|].
  split; [unfold sent; rewrite run_app; simpl; subst l; reflexivity|].
  assert (SO : forall es l0 t, setup_inv t0 p rnd t l0 -> not_accepted es -> 0 <= t -> in_order t es ->
     (forall t', ~ In (t', OPing) (snd (run l0 es))) /\ leaves (snd (run l0 es)) = 0%nat).
  { clear. induction es as [|e es IH]; intros l0 t V NA T O; [simpl; auto|].
    inversion NA; subst. destruct O as [O1 O2]. rewrite run_snd_cons.
    destruct (IH (fst (step l0 e)) (e_now e)) as [B1 B2]; auto; [eapply setup_step; eauto|lia|].
    assert (OUT : forall o, In o (snd (step l0 e)) -> o = OHandshake \/ o = OJoin).
    { unfold step. destruct (si_phase _ _ _ _ _ V) as [P|P]; rewrite P; unfold completion, update_token, is_invalid;
      intros o; cases; simpl; intuition congruence. }
    split.
    - intros t' I. apply in_app_or in I. destruct I as [I|I]; [|exact (B1 _ I)].
      apply in_map_iff in I. destruct I as (o & E & I). injection E as _ ->. destruct (OUT _ I); discriminate.
    - unfold leaves in *. rewrite filter_app, app_length, B2.
      assert (forall os, (forall o, In o os -> o = OHandshake \/ o = OJoin) -> length (filter (fun o : Z * output => match snd o with OLeave => true | _ => false end) (map (pair (e_now e)) os)) = 0%nat) as ->.
      { clear. induction os as [|o os IH]; intros H; [reflexivity|]. simpl. destruct (H o (or_introl eq_refl)) as [-> | ->]; apply IH; intros; apply H; right; assumption. }
      reflexivity. assumption. }
  destruct A' as [acc_t0 acc_rnd acc_es1 acc_a0 acc_time0]. pose proof (in_order_app _ _ _ acc_time0) as O1.
  destruct (SO es1 (fresh t0 p rnd hs) t0 (fresh_setup _ _ _ _ acc_t0) acc_es1 acc_t0 O1) as [B1 B2].
  assert (ST : sent t0 p rnd hs (es1 ++ [a]) = snd (run (fresh t0 p rnd hs) es1) ++ map (pair (e_now a)) (snd (completion (e_now a) (peer t0 p rnd hs es1)))).
  { unfold sent. rewrite run_app. cbn [snd]. f_equal. rewrite run_snd_cons. simpl. rewrite app_nil_r. f_equal.
    change (fst (run (fresh t0 p rnd hs) es1)) with (peer t0 p rnd hs es1).
    unfold step. rewrite acc_a0, Q. unfold upgrade. destruct (completion _ _); reflexivity. }
  split.
  { rewrite S1. unfold step. rewrite acc_a0, Q. unfold upgrade.
    destruct (completion_fields (e_now a) (peer t0 p rnd hs es1)) as (A1&A2&A3&A4&A5&A6&A7&A8&A9&A10&A11&A12&A13&A14).
    destruct (completion (e_now a) _) as [l' o]; cbn [fst] in *. unfold add_to_leafset. cases; rewrite A5; apply V. }
  rewrite ST. unfold completion. split.
  - intros t' I. apply in_app_or in I. destruct I as [I|I]; [exact (B1 _ I)|]. revert I. cases; simpl; intuition congruence.
  - unfold leaves in *. rewrite filter_app, app_length, B2. cases; reflexivity.
Qed.

(** * A silent peer is given up *)
Lemma answered_less h e : (forall r, e_kind e <> Response r) -> (answered (h ++ [e]) <= answered h)%nat.
Proof.
  intros N. unfold answered. rewrite last31_step. destruct (e_kind e) eqn:K; try lia; [exfalso; eapply N; reflexivity|].
  rewrite count_occ_app. simpl.
  destruct (last31 _) as [|x w]; simpl; [lia|]. destruct (Bool.bool_dec x true); lia.
Qed.

(** stage 1: the average is bad or the connection was ended; stage 2: it was ended *)
Definition stage (strict : bool) (l : link) : Prop :=
  left_net l = true \/ (strict = false /\ bad (l_avg2 l) = true).

Lemma stage_step b t0 p tj t h l e : use_inv t0 p tj t h l -> (answered h <= 7)%nat -> t <= e_now e -> tj < e_now e ->
  stage b l -> l_phase (fst (step l e)) = InUse -> stage b (fst (step l e)).
Proof.
  intros V A T TJ S P. pose proof (ui_phase _ _ _ _ _ _ V) as PH. pose proof (ui_join _ _ _ _ _ _ V) as J.
  assert (U : stage b (fst (update e l))).
  { destruct (update_fields e l) as (b' & t' & E). rewrite E. destruct S as [S|[B S]]; [left; exact S|right; split; [assumption|]].
    unfold bad. simpl. rewrite (answered_ones _ _ _ _ _ _ V). lia. }
  assert (L : stage b (w_leave_at (e_now e) l)).
  { left. unfold left_net. simpl. lia. }
  unfold step in *. destruct (e_kind e); rewrite ?PH in *; cbn [fst send_shutdown] in *; try exact S; try exact U; try exact L.
  destruct (has_to_leave _ _); [exact L|]. destruct (is_invalid e l); [discriminate|exact U].
Qed.
Lemma stage_run b : forall es t0 p tj t h l, use_inv t0 p tj t h l -> (answered h <= 7)%nat -> no_answer es -> in_order t es -> tj < t ->
  stage b l -> l_phase (fst (run l es)) = InUse -> stage b (fst (run l es)) /\ (answered (h ++ es) <= 7)%nat.
Proof.
  induction es as [|e es IH]; intros t0 p tj t h l V A N O TJ S P; [rewrite app_nil_r; split; assumption|].
  destruct O as [O1 O2]. inversion N; subst.
  assert (Q : l_phase (fst (step l e)) = InUse).
  { rewrite <- run_one. apply (inuse_prefix [e] es); [apply V|exact P]. }
  rewrite run_fst_cons in *. replace (h ++ e :: es) with ((h ++ [e]) ++ es) by (rewrite <- app_assoc; reflexivity).
  pose proof (answered_less h e H1) as AL.
  eapply IH; eauto; [eapply use_step; eauto|lia|lia|].
  eapply stage_step; eauto. lia.
Qed.
Lemma stage_noop1 t0 p tj t h l e : use_inv t0 p tj t h l -> (answered h <= 7)%nat -> e_kind e = Noop -> tj < e_now e -> t0 + GRACETIME <= e_now e ->
  l_phase (fst (step l e)) = InUse -> stage false (fst (step l e)).
Proof.
  intros V A K TJ G P. pose proof (ui_phase _ _ _ _ _ _ V) as PH. pose proof (ui_join _ _ _ _ _ _ V) as J.
  unfold step in *. rewrite K, PH in *.
  destruct (has_to_leave _ _); [left; unfold left_net; simpl; lia|]. destruct (is_invalid e l); [discriminate|].
  destruct (update_fields e l) as (b' & t' & E). rewrite E. right. split; [reflexivity|].
  unfold bad. simpl. rewrite (answered_ones _ _ _ _ _ _ V). lia.
Qed.
Lemma stage_noop2 t0 p tj t h l e : use_inv t0 p tj t h l -> stage false l -> e_kind e = Noop -> tj < e_now e -> t0 + GRACETIME <= e_now e ->
  l_phase (fst (step l e)) = InUse -> stage true (fst (step l e)).
Proof.
  intros V S K TJ G P. pose proof (ui_phase _ _ _ _ _ _ V) as PH. pose proof (ui_join _ _ _ _ _ _ V) as J.
  pose proof (ui_created _ _ _ _ _ _ V) as C. left.
  unfold step in *. rewrite K, PH in *. unfold has_to_leave, is_invalid in *. rewrite C in *.
  replace (e_now e + NP_PI <? t0 + GRACETIME) with false in * by (unfold NP_PI; lia).
  replace (e_now e <? t0 + GRACETIME) with false in * by lia.
  destruct (left_net l) eqn:LN.
  - rewrite Bool.orb_true_r in P. discriminate.
  - destruct S as [S|[_ S]]; [congruence|]. rewrite S, Bool.orb_true_r. unfold left_net; simpl. lia.
Qed.
Lemma stage_noop3 t0 p tj t h l e : use_inv t0 p tj t h l -> stage true l -> e_kind e = Noop -> t0 + GRACETIME <= e_now e ->
  l_phase (fst (step l e)) = Gone.
Proof.
  intros V S K G. pose proof (ui_phase _ _ _ _ _ _ V) as PH.
  pose proof (ui_created _ _ _ _ _ _ V) as C. destruct S as [S|[X _]]; [|discriminate].
  unfold step in *. rewrite K, PH in *. unfold has_to_leave, is_invalid in *. rewrite C in *.
  replace (e_now e + NP_PI <? t0 + GRACETIME) with false in * by (unfold NP_PI; lia).
  replace (e_now e <? t0 + GRACETIME) with false in * by lia. rewrite S. rewrite Bool.orb_true_r. reflexivity.
Qed.

Lemma gone_or es l : l_phase l = InUse -> l_phase (fst (run l es)) = InUse \/ l_phase (fst (run l es)) = Gone.
Proof.
  revert l. induction es as [|e es IH]; intros; [auto|]. rewrite run_fst_cons.
  destruct (inuse_step l e H) as [A|A]; [apply IH; assumption|right; apply gone_run; assumption].
Qed.

(** * Pings and handshakes are apart *)
Lemma apart_nil d o : apart d o [].
Proof. intros x t1 y t2 z E. destruct x; discriminate. Qed.
Lemma apart_cons_other d o t o' os : o' <> o -> apart d o os -> apart d o ((t, o') :: os).
Proof.
  intros N A x t1 y t2 z E. destruct x as [|q x]; simpl in E; [congruence|]. injection E as _ E. exact (A _ _ _ _ _ E).
Qed.
Lemma apart_cons d o t os : (forall t', In (t', o) os -> t + d <= t') -> apart d o os -> apart d o ((t, o) :: os).
Proof.
  intros N A x t1 y t2 z E. destruct x as [|q x]; simpl in E.
  - injection E as -> E. apply N. rewrite E. apply in_or_app. right; left; reflexivity.
  - injection E as _ E. exact (A _ _ _ _ _ E).
Qed.

Lemma completion_out now l : 
  (l_hs_at l + HS_TTL < now /\ snd (completion now l) = [OHandshake] /\ l_hs_at (fst (completion now l)) = now) \/
  (snd (completion now l) = [OJoin] /\ l_hs_at (fst (completion now l)) = l_hs_at l) \/
  (snd (completion now l) = [] /\ l_hs_at (fst (completion now l)) = l_hs_at l).
Proof. unfold completion. destruct (l_hs_at l + HS_TTL <? now) eqn:E; [left; simpl; split; [lia|auto]|right]. destruct (_ && _); auto. Qed.

Lemma step_outs l e :
  (exists l', snd (step l e) = snd (completion (e_now e) l) /\ fst (completion (e_now e) l) = l' /\ l_hs_at (fst (step l e)) = l_hs_at l' /\ l_next_ping (fst (step l e)) = l_next_ping l) \/
  (snd (step l e) = snd (update e l) /\ fst (step l e) = fst (update e l)) \/
  ((snd (step l e) = [] \/ snd (step l e) = [OJoin] \/ snd (step l e) = [OLeave]) /\ l_hs_at (fst (step l e)) = l_hs_at l /\ l_next_ping (fst (step l e)) = l_next_ping l).
Proof.
  assert (C : l_next_ping (fst (completion (e_now e) l)) = l_next_ping l) by apply (completion_fields (e_now e) l).
  unfold step. destruct (e_kind e); destruct (l_phase l) eqn:P; cbn [fst snd];
    try (right; right; split; [auto|split; reflexivity]; fail);
    try (left; eexists; split; [reflexivity|split; [reflexivity|split; [reflexivity|exact C]]]; fail);
    try (right; left; split; reflexivity).
  - right; right. unfold send_shutdown; cbn [fst snd]. split; [destruct (_ && _); auto|auto].
  - destruct (is_invalid e l); [right; right; split; [auto|split; reflexivity]|].
    left; eexists; split; [reflexivity|split; [reflexivity|split; [reflexivity|exact C]]].
  - destruct (has_to_leave _ _); [right; right; unfold send_shutdown; cbn [fst snd]; split; [destruct (_ && _); auto|auto]|].
    destruct (is_invalid e l); [right; right; split; [auto|split; reflexivity]|]. right; left; split; reflexivity.
  - left. exists (fst (completion (e_now e) l)). unfold upgrade. destruct (completion (e_now e) l) as [l' o]; cbn [fst snd] in *.
    split; [reflexivity|]. split; [reflexivity|]. unfold add_to_leafset. cases; split; auto.
  - right; right. unfold update_token. cases; auto.
Qed.

Lemma update_ping_out e l :
  (snd (update e l) = [] /\ l_next_ping (fst (update e l)) = l_next_ping l) \/
  (snd (update e l) = [OPing] /\ l_next_ping l <= e_now e /\ e_now e + 243220076400 <= l_next_ping (fst (update e l)) /\
   (ones (l_swin l) <= 31 -> l_next_ping (fst (update e l)) <= e_now e + ping_long)).
Proof.
  unfold update. destruct (left_net (averages l)) eqn:LN; [left; split; reflexivity|].
  destruct (update_join_table_fields e (averages l)) as [b1 E1]. rewrite E1.
  unfold update_ping. destruct (above_bad _ && _) eqn:A.
  - right. destruct (update_leave_table_fields e (w_next_ping
      (if last_outcome (w_table b1 (averages l)) then e_now e + PINGS_MAX * l_avg2 (w_table b1 (averages l)) / 62 else e_now e + PINGS_SEC)
      (w_table b1 (averages l)))) as [b2 E2]. rewrite E2. cbn [fst snd]. simpl l_next_ping. simpl l_avg2 in *.
    unfold above_bad in A. apply andb_prop in A. destruct A as [A B]. simpl in B.
    split; [reflexivity|]. split; [lia|]. unfold PINGS_MAX, PINGS_SEC, NP_PI, ping_long.
    set (n := 2 * ones (l_swin l)) in *. assert (16 <= n) by lia.
    assert (31415926535 * 10 * 3 * 16 / 62 <= 31415926535 * 10 * 3 * n / 62) by (apply Z.div_le_mono; lia).
    change (31415926535 * 10 * 3 * 16 / 62) with 243220076400 in H0.
    split; [destruct (last_outcome _); lia|]. intros O.
    assert (31415926535 * 10 * 3 * n / 62 <= 31415926535 * 10 * 3 * 62 / 62) by (apply Z.div_le_mono; lia).
    change (31415926535 * 10 * 3 * 62 / 62) with 942477796050 in H1.
    destruct (last_outcome _); lia.
  - left. destruct (update_leave_table_fields e (w_table b1 (averages l))) as [b2 E2]. rewrite E2. split; reflexivity.
Qed.

Lemma pings_apart_run : forall es l,
  apart 243220076400 OPing (snd (run l es)) /\ (forall t, In (t, OPing) (snd (run l es)) -> l_next_ping l <= t).
Proof.
  induction es as [|e es IH]; intros l; [split; [apply apart_nil|intros t []]|].
  rewrite run_snd_cons. destruct (IH (fst (step l e))) as [A B].
  assert (SKIP : forall os, (os = [] \/ os = [OJoin] \/ os = [OLeave] \/ os = [OHandshake]) -> l_next_ping (fst (step l e)) = l_next_ping l ->
     apart 243220076400 OPing (map (pair (e_now e)) os ++ snd (run (fst (step l e)) es)) /\
     (forall t, In (t, OPing) (map (pair (e_now e)) os ++ snd (run (fst (step l e)) es)) -> l_next_ping l <= t)).
  { intros os H E. rewrite E in B. destruct H as [-> |[-> |[-> | ->]]]; simpl; (split; [try apply apart_cons_other; auto; discriminate|]);
    intros t I; try (destruct I as [I|I]; [discriminate|]); apply B; assumption. }
  destruct (step_outs l e) as [(l' & S1 & S2 & S3 & S4)|[[S1 S2]|[S1 [S2 S3]]]].
  - apply SKIP; [|exact S4]. rewrite S1. destruct (completion_out (e_now e) l) as [(_ & -> & _)|[[-> _]|[-> _]]]; auto.
  - rewrite S1. destruct (update_ping_out e l) as [[-> E]|(-> & L & N & _)].
    + apply SKIP; [auto|rewrite S2; exact E].
    + rewrite S2 in *. simpl. split.
      * apply apart_cons; [|assumption]. intros t' I. specialize (B _ I). lia.
      * intros t [I|I]; [injection I as <-; assumption|]. specialize (B _ I). lia.
  - apply SKIP; [|exact S3]. tauto.
Qed.

Lemma handshakes_apart_run : forall es l,
  apart HS_TTL OHandshake (snd (run l es)) /\ (forall t, In (t, OHandshake) (snd (run l es)) -> l_hs_at l + HS_TTL < t).
Proof.
  induction es as [|e es IH]; intros l; [split; [apply apart_nil|intros t []]|].
  rewrite run_snd_cons. destruct (IH (fst (step l e))) as [A B].
  assert (SKIP : forall os, (os = [] \/ os = [OJoin] \/ os = [OLeave] \/ os = [OPing]) -> l_hs_at (fst (step l e)) = l_hs_at l ->
     apart HS_TTL OHandshake (map (pair (e_now e)) os ++ snd (run (fst (step l e)) es)) /\
     (forall t, In (t, OHandshake) (map (pair (e_now e)) os ++ snd (run (fst (step l e)) es)) -> l_hs_at l + HS_TTL < t)).
  { intros os H E. rewrite E in B. destruct H as [-> |[-> |[-> | ->]]]; simpl; (split; [try apply apart_cons_other; auto; discriminate|]);
    intros t I; try (destruct I as [I|I]; [discriminate|]); apply B; assumption. }
  destruct (step_outs l e) as [(l' & S1 & S2 & S3 & S4)|[[S1 S2]|[S1 [S2 S3]]]].
  - destruct (completion_out (e_now e) l) as [(L & C1 & C2)|[[C1 C2]|[C1 C2]]].
    + rewrite S1, C1. rewrite S3, <- S2, C2 in B. simpl. split.
      * apply apart_cons; [|assumption]. intros t' I. specialize (B _ I). lia.
      * intros t [I|I]; [injection I as <-; assumption|]. specialize (B _ I). unfold HS_TTL, SECOND in *. lia.
    + apply SKIP; [rewrite S1, C1; auto|congruence].
    + apply SKIP; [rewrite S1, C1; auto|congruence].
  - apply SKIP.
    + rewrite S1. destruct (update_out e l) as [-> | ->]; auto.
    + rewrite S2. destruct (update_fields e l) as (b & t & ->). reflexivity.
  - apply SKIP; [tauto|exact S2].
Qed.

(** * At most one leave message *)
Lemma leave_step l e : 
  (l_phase l = Setup /\ leaves (map (pair (e_now e)) (snd (step l e))) = 0%nat) \/
  (l_join_at (fst (step l e)) = l_join_at l /\ l_phase (fst (step l e)) <> Setup /\ 
   ((leaves (map (pair (e_now e)) (snd (step l e))) = 0%nat /\ (l_leave_at (fst (step l e)) = l_leave_at l \/ l_leave_at (fst (step l e)) = e_now e)) \/
    (leaves (map (pair (e_now e)) (snd (step l e))) = 1%nat /\ l_leave_at l < l_join_at l /\ l_leave_at (fst (step l e)) = e_now e))).
Proof.
  destruct (l_phase l) eqn:P.
  - left. split; [reflexivity|]. unfold step. rewrite P. unfold completion, update_token, upgrade. unfold completion. cases.
    revert E0. destruct (_ <? _); [|destruct (_ && _)]; intros E0; injection E0 as <- <-; reflexivity.
  - right.
    assert (U : l_join_at (fst (update e l)) = l_join_at l /\ l_phase (fst (update e l)) <> Setup /\ leaves (map (pair (e_now e)) (snd (update e l))) = 0%nat /\ l_leave_at (fst (update e l)) = l_leave_at l).
    { destruct (update_fields e l) as (b & t & E). rewrite E. destruct (update_out e l) as [-> | ->]; repeat split; simpl; congruence. }
    destruct U as (U1 & U2 & U3 & U4).
    assert (SH : l_join_at (w_leave_at (e_now e) l) = l_join_at l /\ l_phase (w_leave_at (e_now e) l) <> Setup /\
      ((leaves (map (pair (e_now e)) (snd (send_shutdown true (e_now e) l))) = 0%nat /\ (l_leave_at (w_leave_at (e_now e) l) = l_leave_at l \/ l_leave_at (w_leave_at (e_now e) l) = e_now e)) \/
       (leaves (map (pair (e_now e)) (snd (send_shutdown true (e_now e) l))) = 1%nat /\ l_leave_at l < l_join_at l /\ l_leave_at (w_leave_at (e_now e) l) = e_now e))).
    { split; [reflexivity|]. split; [simpl; congruence|]. simpl. destruct (above_bad (l_avg2 l) && (l_leave_at l <? l_join_at l)) eqn:B.
      - right. apply andb_prop in B. split; [reflexivity|]. split; [lia|reflexivity].
      - left. auto. }
    unfold step. rewrite P. destruct (e_kind e); cbn [fst]; try (split; [reflexivity|split; [simpl; congruence|left; auto]]; fail);
      try (split; [exact U1|split; [exact U2|left; split; [exact U3|left; exact U4]]]; fail); try exact SH.
    destruct (has_to_leave _ _); [exact SH|]. destruct (is_invalid e l).
    + simpl. split; [reflexivity|]. split; [discriminate|left; auto].
    + split; [exact U1|split; [exact U2|left; split; [exact U3|left; exact U4]]].
  - right. unfold step. rewrite P. destruct (e_kind e); simpl; (split; [reflexivity|split; [congruence|left; auto]]).
Qed.
Lemma join_step l e t : l_join_at l <= t -> t <= e_now e -> l_join_at (fst (step l e)) <= e_now e.
Proof.
  intros A B. destruct (l_phase l) eqn:P; [|destruct (leave_step l e) as [[X _]|(X & _)]; [congruence|lia]..].
  destruct (completion_fields (e_now e) l) as (_&_&_&_&_&_&_&_&_&_&_&_&_&C).
  unfold step. rewrite P. unfold upgrade. destruct (completion (e_now e) l) as [l' o]; simpl in C. unfold update_token, add_to_leafset. cases; simpl; lia.
Qed.
Lemma leaves_app a b : leaves (a ++ b) = (leaves a + leaves b)%nat.
Proof. unfold leaves. rewrite filter_app, app_length. reflexivity. Qed.
Lemma leaves_run : forall es l t, l_join_at l <= t -> in_order t es ->
  (leaves (snd (run l es)) <= 1)%nat /\ (l_phase l <> Setup -> l_join_at l <= l_leave_at l -> leaves (snd (run l es)) = 0%nat).
Proof.
  induction es as [|e es IH]; intros l t J O; [split; [unfold leaves; simpl; lia|reflexivity]|].
  destruct O as [O1 O2]. rewrite run_snd_cons, leaves_app.
  destruct (IH (fst (step l e)) (e_now e) (join_step _ _ _ J O1) O2) as [A B].
  destruct (leave_step l e) as [[P Z0]|(JJ & PH & [[Z0 LV]|(Z1 & LT & LV)])].
  - rewrite Z0. split; [lia|]. intros; contradiction.
  - rewrite Z0. split; [lia|]. intros _ L. simpl. apply B; [assumption|]. rewrite JJ. destruct LV as [-> | ->]; lia.
  - rewrite Z1. rewrite B; [|assumption|lia]. split; [lia|]. intros; lia.
Qed.

(** * Latency *)
Record lat_inv (lo hi : Z) (l : link) : Prop := {
  li_win : Forall (fun x => lo <= x <= hi) (l_lwin l); li_len : length (l_lwin l) = 31%nat;
  li_lat : l_latency l = - SECOND \/ lo <= l_latency l <= hi }.
Lemma Forall_upd {A} (P : A -> Prop) l i x : Forall P l -> P x -> Forall P (upd l i x).
Proof. intros F X. revert i. induction F; intros [|i]; simpl; constructor; auto. Qed.
Lemma sum_bounds lo hi w : Forall (fun x => lo <= x <= hi) w -> Z.of_nat (length w) * lo <= fold_right Z.add 0 w <= Z.of_nat (length w) * hi.
Proof. induction 1; [simpl; lia|]. cbn [length fold_right]. rewrite Nat2Z.inj_succ. lia. Qed.
Lemma average_bounds lo hi l : lat_inv lo hi l -> lo <= l_latency (averages l) <= hi.
Proof.
  intros []. pose proof (sum_bounds _ _ _ li_win0) as S. rewrite li_len0 in S. change (Z.of_nat 31) with 31 in S.
  unfold averages, w_averages. cbn [l_latency]. change (Z.of_nat WINDOW) with 31.
  split; [apply Z.div_le_lower_bound; lia|]. apply Z.div_le_upper_bound; lia.
Qed.
Lemma lat_update lo hi e l : lat_inv lo hi l -> lat_inv lo hi (fst (update e l)) /\ lo <= l_latency (fst (update e l)) <= hi.
Proof.
  intros V. destruct (update_fields e l) as (b & t & E). rewrite E. pose proof (average_bounds _ _ _ V) as A.
  split; [|exact A]. destruct V. split; [exact li_win0|exact li_len0|right; exact A].
Qed.
Lemma lat_step lo hi l e : 0 < lo -> l_phase l = InUse -> lat_inv lo hi l -> 
  (forall x, (e_kind e = Response x \/ e_kind e = Timeout x) -> lo <= x <= hi) -> lat_inv lo hi (fst (step l e)).
Proof.
  intros LO P V M. pose proof (lat_update lo hi e l V) as [U _]. destruct V.
  unfold step. rewrite P. destruct (e_kind e) eqn:K; cbn [fst]; try exact U; try (split; assumption).
  - specialize (M rtt (or_introl eq_refl)). split; cbn [handle_response w_lwin w_swin l_lwin l_latency]; [| |assumption].
    + apply Forall_upd; [|destruct (0 <? rtt) eqn:Z; lia].
      destruct (_ =? _); [|assumption]. apply Forall_forall. intros x I. apply repeat_spec in I. subst; assumption.
    + rewrite upd_length. destruct (_ =? _); [apply repeat_length|assumption].
  - specialize (M waited (or_intror eq_refl)). split; cbn [handle_timeout w_lwin w_swin l_lwin l_latency]; [| |assumption].
    + apply Forall_upd; assumption.
    + rewrite upd_length. assumption.
  - destruct (has_to_leave _ _); [split; assumption|]. destruct (is_invalid e l); [split; assumption|exact U].
Qed.
Lemma lat_run lo hi : 0 < lo -> forall es l, l_phase l = InUse -> lat_inv lo hi l -> measured lo hi es ->
  l_phase (fst (run l es)) = InUse -> lat_inv lo hi (fst (run l es)).
Proof.
  intros LO. induction es as [|e es IH]; intros l P V M Q; [assumption|]. inversion M; subst.
  assert (P' : l_phase (fst (step l e)) = InUse).
  { rewrite <- run_one. apply (inuse_prefix [e] es); [assumption|exact Q]. }
  rewrite run_fst_cons in *. apply IH; auto. apply lat_step; auto.
Qed.
