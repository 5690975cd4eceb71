(** Claims C79-C82: threads, running, shutdown callbacks and destruction of a node. *)
From Coq Require Import Permutation.
From Verif Require Import Base Jobqueue_Model Jobqueue_Proofs Life_Model Life_Spec Life_Proofs.

(** *** C79: np_settings.n_threads is the number of threads a node starts.
    Up to 130: exactly that many threads, one of them (if there is any) the manager that wakes up by
    itself, and each of the three event loops is served exactly once. *)
Theorem C79_threads_partial : forall n, 0 <= n <= 130 ->
  exists k ts js, start_workers k n = (ts, js, true) /\ Z.of_nat (length ts) = n /\
    (forall l, served l ts js = 1%nat) /\ managers ts = (if (1 <=? n)%Z then 1 else 0)%nat.
Proof.
  intros n H. pose proof (start_ok n H) as K. exists 200%nat.
  destruct (start_workers 200 n) as [[ts js] e]. destruct K as (-> & A & B & C). exists ts, js.
  repeat split; auto. rewrite C. destruct (Z.ltb_spec 0 n), (Z.leb_spec 1 n); auto; lia.
Qed.
Example C79_default : start_workers 10 5 = ([TLoop LIn; TLoop LOut; TManager; TWorker; TWorker], [LFile], true).
Proof. reflexivity. Qed.

(** From 131 to 255 threads np_run never comes back: it starts threads without end. *)
Theorem C79_endless_refuted : forall n, 131 <= n <= 255 -> forall k,
  exists ts js, start_workers k n = (ts, js, false) /\ (k <= length ts)%nat.
Proof.
  intros n H k. pose proof (start_forever n k H) as K. destruct (start_workers k n) as [[ts js] e].
  destruct K as [-> L]. eauto.
Qed.
Example C79_endless_ex : length (fst (fst (start_workers 300 200))) = 303%nat.
Proof. vm_compute. reflexivity. Qed.

(** Only the lowest byte of the setting counts: 256 threads are none. *)
Theorem C79_lowest_byte_refuted : (forall k n, start_workers k n = start_workers k (n mod 256)) /\
  forall k, start_workers k 256 = ([], [LIn; LOut; LFile], true).
Proof.
  split.
  - intros k n. unfold start_workers, u8. rewrite Z.mod_mod by lia. reflexivity.
  - intros [|k]; reflexivity.
Qed.

(** The threads are started once if one application thread makes all the calls, whatever it calls and
    however the threads of the node are scheduled. *)
Theorem C79_started_once_partial : forall started a es w,
  Forall (only a) es -> steps started life0 es = Some w -> (l_starts w <= 1)%nat.
Proof. intros started a es w O H. exact (o_once a w (lone_steps started a es _ _ (lone0 a) O H)). Qed.
(** Once the node has left np_stopped (3), no call of any thread starts threads again. *)
Theorem C79_not_again : forall started w es w', reachable started w -> l_status w <> 3 ->
  steps started w es = Some w' -> l_starts w' = l_starts w /\ length (l_threads w') = length (l_threads w).
Proof. intros started w es w' _ S H. destruct (started_stable_steps started es w w' S H) as (A & _ & B). auto. Qed.

(** Whatever the schedule: a thread of the node starts to work (runs a job, polls its sockets) only in a step in which the
    node is running (2). *)
Theorem C79_work_only_while_running : forall started w e w' i t', step started w e = Next w' ->
  nth_error (l_threads w') i = Some t' -> th_pc t' = WRun -> l_status w = 2 \/ exists t, nth_error (l_threads w) i = Some t /\ th_pc t = WRun.
Proof. intros started w e w' i t' H. exact (work_step started w e w' i t' H). Qed.

(** the state after a given execution *)
Definition after (started : list thread_start) (w : life) (es : list ev) : life :=
  match steps started w es with Some w' => w' | None => life0 end.
Lemma after_ok started w es : (match steps started w es with Some _ => true | None => false end) = true ->
  steps started w es = Some (after started w es).
Proof. unfold after. destruct (steps started w es); auto; discriminate. Qed.
Example C79_work_ex : option_map th_pc (nth_error (l_threads (after [TWorker] life0 [CallRun 0; App 0 0; App 0 0; App 0 0])) 0) = Some WCheck /\
  option_map th_pc (nth_error (l_threads (after [TWorker] life0 [CallRun 0; App 0 0; App 0 0; App 0 0; Thr 0 false])) 0) = Some WRun.
Proof. split; vm_compute; reflexivity. Qed.
Definition up (a : nat) : list ev := [CallRun a; App a 0; App a 0; App a 0; App a 1].
Example C79_once_case : let w := after [TManager; TWorker] life0 (up 0 ++ up 0) in
  steps [TManager; TWorker] life0 (up 0 ++ up 0) = Some w /\
  l_starts w = 1%nat /\ length (l_threads w) = 2%nat /\ l_status w = 2.
Proof. cbn zeta. split; [apply after_ok; vm_compute; reflexivity|]. repeat split; vm_compute; reflexivity. Qed.

(** Two threads that call np_run at the same time both start the threads. *)
Theorem C79_two_callers_refuted : exists es w, steps [TManager; TWorker] life0 es = Some w /\
  l_starts w = 2%nat /\ length (l_threads w) = 4%nat.
Proof.
  set (es := [CallRun 0; CallRun 1; App 0 0; App 1 0]).
  exists es, (after [TManager; TWorker] life0 es). split; [apply after_ok; vm_compute; reflexivity|].
  split; vm_compute; reflexivity.
Qed.

(** *** C80: np_run returns at the first check after the given time (or after the end of the node), not
    before, and runs at most one job per check. *)
Theorem C80_runs_for_the_time : forall s now d ts ran s' rest,
  run_jobs_for s now d ts = Ok (Some (ran, s', rest)) ->
  exists before t, ts = before ++ t :: rest /\
    (now + d <= t_now t \/ ~ (t_status t = 2 \/ t_status t = 3)) /\
    Forall (fun u => t_now u < now + d /\ (t_status u = 2 \/ t_status u = 3)) before /\
    (length ran <= length before + 1)%nat.
Proof.
  intros s now d ts ran s' rest H. unfold run_jobs_for in H. apply run_for_end in H.
  destruct H as (before & t & A & B & C & D & _). exists before, t. split; auto.
  assert (G : forall x, goes_on x = true <-> x = 2 \/ x = 3).
  { intros x. unfold goes_on, np_uninitialized, np_shutdown. split; intros; lia. }
  split; [destruct B as [B|B]; auto; right; rewrite <- G; congruence|].
  split; [eapply Forall_impl; [|exact C]; cbn; intros u [X Y]; rewrite <- G; auto|]. cbn in D. lia.
Qed.
Definition due2 : jq :=
  match submit_all (jq_init 8) [mkJob 1 5 0 0 false; mkJob 2 6 0 0 false] with Ok s => s | _ => jq_init 8 end.
Example C80_case : exists s', run_jobs_for due2 100 10
    [mkTurn true true [] 2 103; mkTurn true true [] 2 106; mkTurn true true [] 2 111; mkTurn true true [] 2 115]
  = Ok (Some ([mkJob 1 5 0 0 false; mkJob 2 6 0 0 false], s', [mkTurn true true [] 2 115])).
Proof. eexists. vm_compute. reflexivity. Qed.

(** No job is lost, made up or run early: with [used] the turns made and [os] what each of them ran, the jobs run and those
    left are those that were there, those of the submitted ones that were accepted ([yes]) and the periodic ones that were run, for their
    next time. *)
Theorem C80_no_loss_no_duplication_never_early : forall n ops s h now d ts ran s' rest, Z.of_nat n <= 32767 -> jop_run (jq_init n) ([], []) ops = Ok (s, h) ->
  run_jobs_for s now d ts = Ok (Some (ran, s', rest)) ->
  exists used os yes no, ts = used ++ rest /\ length os = length used /\ ran = jobs_of os /\
    Forall2 (fun c o => forall j, o = Some j -> j_ts j < c) (firstn (length used) (now :: map t_now used)) os /\
    Permutation (flat_map t_new used) (yes ++ no) /\
    Permutation (jq_jobs s ++ yes ++ all_due_again (now :: map t_now used) os) (jobs_of os ++ jq_jobs s').
Proof.
  intros n ops s h now d ts ran s' rest Hn Hr H. pose proof (jop_run_good ops _ _ _ _ n (good_init n Hn) Hr) as (I & C & _).
  destruct (run_for_jobs _ _ _ _ _ _ _ _ _ I C H) as (used & os & yes & no & H1 & H2 & H3 & H4 & H5 & H6). exists used, os, yes, no. auto 10.
Qed.
(** one job is run, one comes in while it runs, and one that is periodic is run and waits again *)
Example C80_no_loss_ex : exists s h s', jop_run (jq_init 512) ([], []) [JSubmit (mkJob 1 5 0 0 false); JSubmit (mkJob 2 6 0 50 true)] = Ok (s, h) /\
  run_jobs_for s 100 10 [mkTurn true true [mkJob 3 500 0 0 false] 2 103; mkTurn true true [] 2 111] = Ok (Some ([mkJob 1 5 0 0 false; mkJob 2 6 0 50 true], s', [])) /\
  Permutation (jq_jobs s') [mkJob 2 153 0 50 true; mkJob 3 500 0 0 false].
Proof. do 3 eexists. split; [vm_compute; reflexivity|]. split; [vm_compute; reflexivity|]. vm_compute. reflexivity. Qed.
(** np_run(0) looks at the queue once. *)
Theorem C80_zero : forall s now t ts ran s' rest, now <= t_now t ->
  run_jobs_for s now 0 (t :: ts) = Ok (Some (ran, s', rest)) -> rest = ts /\ (length ran <= 1)%nat.
Proof.
  intros s now t ts ran s' rest Hm H. apply C80_runs_for_the_time in H.
  destruct H as (before & u & A & B & C & D). destruct before as [|v before]; cbn in A; inversion A; subst.
  - split; auto.
  - inversion C; subst. lia.
Qed.
(** So it does not process all outstanding events, as its description says: here a job that is due stays. *)
Theorem C80_outstanding_refuted : exists s now t ran s', run_jobs_for s now 0 [t] = Ok (Some (ran, s', [])) /\
  length ran = 1%nat /\ exists j, In j (jq_jobs s') /\ j_ts j < now.
Proof.
  exists due2, 100, (mkTurn true true [] 2 100). eexists. eexists. split; [vm_compute; reflexivity|].
  split; [reflexivity|]. exists (mkJob 2 6 0 0 false). split; [vm_compute; auto|cbn; lia].
Qed.

(** *** C81: callbacks registered while the node runs are called once each, in the order of registration,
    before the other nodes are told that this one leaves. *)
Theorem C81_once_in_order_partial : forall again pre mid cs g,
  Forall no_destroy pre -> Forall no_run pre -> Forall no_destroy mid ->
  registered mid = map Some cs -> Forall (fun c => again c = false) cs ->
  exists n, api_steps again node0 (pre ++ Run :: mid ++ [Destroy g]) = Done n /\
    n_log n = cs /\ n_left n = (if g then Some (length cs) else None) /\ n_freed n = true.
Proof.
  intros again pre mid cs g Dp Rp Dm Rm Ag.
  assert (App : forall l l' n, api_steps again n (l ++ l') =
     match api_steps again n l with Done n' => api_steps again n' l' | Hang => Hang | Fault => Fault end).
  { induction l as [|x l IH]; intros l' n; cbn; auto. destruct (api_step again n x); auto. }
  rewrite App, before_run by auto. cbn [api_steps api_step].
  replace (api_run node0) with (Done (mkNode np_running (Some []) [] None false)) by reflexivity. cbv iota.
  rewrite App. erewrite while_running by (cbn; eauto). cbn [app n_log n_left]. rewrite Rm.
  cbn [api_steps api_step]. unfold api_destroy. cbn [n_freed n_module n_log n_left].
  rewrite entries_ok by auto. cbn [app]. destruct g; cbn [run_entries]; eexists; split; try reflexivity; auto.
Qed.
Example C81_case : exists n, api_steps (fun _ => false) node0 [Run; Add (Some 7%nat); Run; Add (Some 8%nat); Destroy true] = Done n /\
  n_log n = [7%nat; 8%nat] /\ n_left n = Some 2%nat.
Proof. eexists. split; [reflexivity|]. auto. Qed.

(** Registered before np_run a callback is dropped, although np_add_shutdown_cb answers np_ok. *)
Theorem C81_before_run_refuted : forall again pre g, Forall no_destroy pre -> Forall no_run pre ->
  exists n, api_steps again node0 (pre ++ [Run; Destroy g]) = Done n /\ n_log n = [].
Proof.
  intros again pre g Dp Rp.
  destruct (C81_once_in_order_partial again pre [] [] g Dp Rp) as (n & A & B & _); auto. exists n. auto.
Qed.
(** A NULL callback hides all later ones, and the notice to the other nodes. *)
Theorem C81_null_refuted : exists n, api_steps (fun _ => false) node0 [Run; Add None; Add (Some 1%nat); Destroy true] = Done n /\
  n_log n = [] /\ n_left n = None.
Proof. eexists. split; [reflexivity|]. auto. Qed.
(** A callback that registers another one stops np_destroy for ever. *)
Theorem C81_nested_refuted : forall again c g, again c = true ->
  api_steps again node0 [Run; Add (Some c); Destroy g] = Hang.
Proof. intros again c g H. cbn. rewrite H. reflexivity. Qed.

(** *** C82: when np_destroy has freed the node, all its threads have ended: for every schedule and any
    number of application threads calling np_run and np_destroy. *)
Theorem C82_threads_have_ended : forall started w, reachable started w -> l_freed w = true -> Forall ended (l_threads w).
Proof. intros started w R F. apply (g_freed w (reach_good started w R) F). Qed.
(** At most one np_destroy does the work, and nothing touches the freed node unless the application does. *)
Theorem C82_nothing_afterwards : forall started w e, reachable started w -> l_freed w = true ->
  (forall a, l_app w a = AOut) -> no_call e -> step started w e = Disabled.
Proof.
  intros started w e R F A N. destruct (g_freed w (reach_good started w R) F) as [E _].
  destruct e as [b|b|b c|i c|i]; cbn in N; try contradiction; cbn [step].
  - unfold app_step. rewrite A. reflexivity.
  - unfold thread_step. destruct (nth_error (l_threads w) i) as [t|] eqn:Nt; auto.
    rewrite (nth_forall _ _ _ _ E Nt). reflexivity.
  - unfold timeout_step. destruct (nth_error (l_threads w) i) as [t|] eqn:Nt; auto.
    rewrite (nth_forall _ _ _ _ E Nt). destruct (th_kind t); reflexivity.
Qed.

(** np_destroy comes to its end, whatever the schedule, if at the moment it has set the status no worker
    is between looking for a job and waiting, and no other call is under way: at most six steps per thread
    and five more are possible, and when no more is possible the call has returned. *)
Theorem C82_destroy_returns_partial : forall started a w es w', reachable started w ->
  l_app w a = DBcast -> l_status w = 4 -> (forall b, b <> a -> l_app w b = AOut) ->
  Forall (fun t => ~ off_guard t) (l_threads w) ->
  Forall no_call es -> steps started w es = Some w' ->
  (length es <= 6 * length (l_threads w) + 5)%nat /\
  (forall e, no_call e -> step started w' e <> Broken) /\
  (at_rest started w' -> l_freed w' = true /\ l_app w' a = AOut /\ Forall ended (l_threads w')).
Proof.
  intros started a w es w' R Ea St Oth Gd N H.
  pose proof (reach_good started w R) as G.
  assert (C : closing a w).
  { constructor; auto; rewrite ?Ea; auto.
    - intros _. destruct (l_freed w) eqn:F; auto. destruct (g_freed w G F) as [_ X]. specialize (X a). rewrite Ea in X. discriminate.
    - congruence. }
  destruct (closing_steps started a es w w' C N H) as [C' M]. split; [|split].
  - unfold measure in M. rewrite Ea in M. cbn [app_rank] in M. pose proof (ranks_le (l_threads w)). lia.
  - intros e Ne. apply (closing_sound started a); auto.
  - intros Re. destruct (closing_rest started a w' C' Re) as [A B]. repeat split; auto.
    apply (g_freed w' (c_good a w' C') A).
Qed.
Definition sleeping : list ev := up 0 ++ [Thr 1 false; Thr 1 false; Thr 1 false; CallDestroy 0; App 0 0; App 0 0].
Definition ending : list ev :=
  [App 0 0; App 0 0; App 0 0; Thr 1 true; Thr 0 true; App 0 0; App 0 0; App 0 0; App 0 0; App 0 0].
Example C82_case : let w := after [TManager; TWorker] life0 sleeping in
  steps [TManager; TWorker] life0 sleeping = Some w /\
  l_app w 0%nat = DBcast /\ l_status w = 4 /\ Forall (fun t => ~ off_guard t) (l_threads w) /\
  steps [TManager; TWorker] w ending = Some (after [TManager; TWorker] w ending) /\
  l_freed (after [TManager; TWorker] w ending) = true.
Proof.
  cbn zeta. split; [apply after_ok; vm_compute; reflexivity|]. split; [vm_compute; reflexivity|].
  split; [vm_compute; reflexivity|]. split.
  { replace (l_threads _) with [mkThread KManager WCheck false; mkThread KWorker WBlocked false] by (vm_compute; reflexivity).
    repeat constructor; unfold off_guard; cbn; intros [A [B|B]]; discriminate. }
  split; [apply after_ok; vm_compute; reflexivity|vm_compute; reflexivity].
Qed.

(** A worker that looked for a job just before np_destroy waits for ever, and np_destroy with it: nothing
    can happen any more. *)
Theorem C82_lost_wakeup_refuted : exists es w, Forall (only 0) es /\ steps [TManager; TWorker] life0 es = Some w /\
  at_rest [TManager; TWorker] w /\ l_app w 0%nat = DJoin 1 /\ l_freed w = false.
Proof.
  set (es := up 0 ++ [Thr 1 false; CallDestroy 0; App 0 0; App 0 0; App 0 0; App 0 0; App 0 0; App 0 0;
                   Thr 0 true; App 0 0; Thr 1 false; Thr 1 false]).
  exists es, (after [TManager; TWorker] life0 es). split; [repeat constructor; reflexivity|].
  split; [apply after_ok; vm_compute; reflexivity|].
  set (w := after [TManager; TWorker] life0 es).
  assert (T : l_threads w = [mkThread KManager WEnd false; mkThread KWorker WBlocked false]) by (vm_compute; reflexivity).
  assert (A : l_app w 0%nat = DJoin 1) by (vm_compute; reflexivity).
  assert (F : l_freed w = false) by (vm_compute; reflexivity).
  assert (B : forall b, l_app w (S b) = AOut) by (intros b; vm_compute; reflexivity).
  split; [|auto]. clearbody w. clear es.
  intros e w' N. destruct e as [b|b|b c|i c|i]; cbn in N; try contradiction; cbn [step].
  - unfold app_step. destruct b as [|b]; [rewrite A, F, T; cbn; discriminate|rewrite B; discriminate].
  - unfold thread_step. rewrite T. destruct i as [|[|[|i]]]; cbn; discriminate.
  - unfold timeout_step. rewrite T. destruct i as [|[|[|i]]]; cbn; discriminate.
Qed.

(** np_run in one thread and np_destroy in another: np_run may set the status back to running, and then
    np_destroy never returns. *)
Definition revived (w : life) : Prop := l_status w = 2 /\ l_freed w = false /\
  (exists p, p <> WEnd /\ l_threads w = [mkThread KManager p false]) /\
  (l_app w 0%nat = DSig 0 \/ l_app w 0%nat = DSig 1 \/ l_app w 0%nat = DJoin 0) /\
  (forall b, b <> 0%nat -> l_app w b = AOut \/ l_app w b = ALoop).
Lemma revived_step w e w' : revived w -> no_call e -> step [TManager] w e = Next w' -> revived w'.
Proof.
  intros (St & Fr & (p & Hp & Th) & A & O) N H. destruct e as [b|b|b c|i c|i]; cbn in N; try contradiction; cbn [step] in H.
  - unfold app_step in H. rewrite Fr in H. destruct (Nat.eq_dec b 0) as [->|Nb].
    + destruct A as [A|[A|A]]; rewrite A, Th in H; cbn in H; try (destruct p; try discriminate; congruence);
        inversion H; subst; (split; [auto|split; [auto|split; [eauto|split]]]); cbn; auto;
        intros b Hb; destruct (Nat.eqb_spec b 0); try congruence; auto.
    + destruct (O b Nb) as [Ob|Ob]; rewrite Ob in H; try discriminate. inversion H; subst.
      split; [auto|split; [auto|split; [eauto|split]]]; cbn.
      * destruct b as [|b]; [congruence|]. cbn. auto.
      * intros x Hx. destruct (Nat.eqb_spec x b); auto. destruct (goes_on (l_status w) && Nat.eqb c 0); auto.
  - unfold thread_step in H. rewrite Th, Fr in H. destruct i as [|i]; [|destruct i; discriminate]. cbn in H. rewrite St in H.
    destruct p; try discriminate; cbn in H; inversion H; subst;
      (split; [auto|split; [auto|split; [cbn; rewrite Th; cbn; eexists; split; [|reflexivity]; try discriminate|split; auto]]]).
    destruct c; discriminate.
  - unfold timeout_step in H. rewrite Th, Fr in H. destruct i as [|i]; [|destruct i; discriminate]. cbn in H.
    destruct p; try discriminate; inversion H; subst.
    split; [auto|split; [auto|split; [cbn; rewrite Th; cbn; eexists; split; [|reflexivity]; discriminate|split; auto]]].
Qed.
Theorem C82_revived_refuted : exists es w, steps [TManager] life0 es = Some w /\ l_flag w = true /\
  forall es' w', Forall no_call es' -> steps [TManager] w es' = Some w' -> l_freed w' = false.
Proof.
  set (es := up 0 ++ [CallRun 1; App 1 0; App 1 0; CallDestroy 0; App 0 0; App 0 0; App 0 0; App 1 0]).
  exists es, (after [TManager] life0 es). split; [apply after_ok; vm_compute; reflexivity|].
  split; [vm_compute; reflexivity|].
  assert (R : revived (after [TManager] life0 es)).
  { split; [vm_compute; reflexivity|]. split; [vm_compute; reflexivity|].
    split; [exists WCheck; split; [discriminate|vm_compute; reflexivity]|].
    split; [left; vm_compute; reflexivity|]. intros [|[|b]] Hb; [congruence|right; vm_compute; reflexivity|left; vm_compute; reflexivity]. }
  revert R. generalize (after [TManager] life0 es). clear es. intros w R es'. revert w R.
  induction es' as [|e es IH]; intros w R w' N H; cbn in H.
  - inversion H; subst. apply R.
  - inversion N; subst. destruct (step [TManager] w e) eqn:E; try discriminate.
    eapply IH; [|eassumption|eassumption]. eapply revived_step; eauto.
Qed.

(** np_run does not notice that another thread has freed the node. *)
Theorem C82_used_after_free_refuted : exists es w, steps [TManager] life0 es = Some w /\
  l_freed w = true /\ step [TManager] w (App 1 0) = Broken.
Proof.
  set (es := [CallRun 1; App 1 0; App 1 0; App 1 0; CallDestroy 0; App 0 0; App 0 0; App 0 0; App 0 0; App 0 0;
           Thr 0 true; App 0 0; App 0 0; App 0 0]).
  exists es, (after [TManager] life0 es). split; [apply after_ok; vm_compute; reflexivity|].
  split; vm_compute; reflexivity.
Qed.

Print Assumptions C79_threads_partial.
Print Assumptions C79_endless_refuted.
Print Assumptions C79_lowest_byte_refuted.
Print Assumptions C79_started_once_partial.
Print Assumptions C79_not_again.
Print Assumptions C79_work_only_while_running.
Print Assumptions C79_two_callers_refuted.
Print Assumptions C80_runs_for_the_time.
Print Assumptions C80_no_loss_no_duplication_never_early.
Print Assumptions C80_zero.
Print Assumptions C80_outstanding_refuted.
Print Assumptions C81_once_in_order_partial.
Print Assumptions C81_before_run_refuted.
Print Assumptions C81_null_refuted.
Print Assumptions C81_nested_refuted.
Print Assumptions C82_threads_have_ended.
Print Assumptions C82_nothing_afterwards.
Print Assumptions C82_destroy_returns_partial.
Print Assumptions C82_lost_wakeup_refuted.
Print Assumptions C82_revived_refuted.
Print Assumptions C82_used_after_free_refuted.
