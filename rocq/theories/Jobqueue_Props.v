(** C09, C10: the job queue. *)
From Verif Require Import Base Heap_Model Heap_Spec Heap_Proofs Jobqueue_Model Jobqueue_Proofs.

(** C09: selection order is time first, then priority (a strict weak order). *)
Theorem C09_scheduling_order : forall a b,
  job_before a b = true <-> j_ts a < j_ts b \/ (j_ts a = j_ts b /\ j_prio a < j_prio b).
Proof. exact job_before_spec. Qed.

(** C09: in any history of submissions and polls (whatever the two trylocks answer) every accepted
    job is either handed out or still waiting, exactly once; each job handed out is due at the
    polling time; at most 511 jobs wait in each queue.  [n] is the configured queue size. *)
Theorem C09_no_loss_no_duplication_never_early : forall n os s accepted taken,
  Z.of_nat n <= 32767 ->
  jop_run (jq_init n) ([], []) os = Ok (s, (accepted, taken)) ->
  Permutation accepted (map snd taken ++ jq_jobs s) /\
  Forall (fun x => j_ts (snd x) < fst x) taken /\
  (jq_count s <= 1022)%nat /\ length (jq_jobs s) = jq_count s.
Proof.
  intros n os s a t Hn H. pose proof (jop_run_good os _ _ _ _ n (good_init n Hn) H) as G.
  pose proof (good_bound _ _ _ G) as B. destruct G as (I & C & P & D). cbn [fst snd] in *.
  repeat split; auto.
  - unfold jq_count. lia.
  - unfold jq_jobs, jq_count. rewrite app_length, !list_length. reflexivity.
Qed.

(** C09: a poll that gets both locks hands out a job with the least due time of all waiting jobs,
    and, among the jobs of the same queue, none goes before it; if it hands out nothing then no
    waiting job is due (strictly before now). *)
Theorem C09_selection_is_earliest : forall n os s h now t0 t1 ret oj s',
  Z.of_nat n <= 32767 ->
  jop_run (jq_init n) ([], []) os = Ok (s, h) ->
  jq_select s now t0 t1 = Ok (ret, oj, s') ->
  match oj with
  | Some j => ret = 0 /\ j_ts j < now /\ In j (jq_jobs s) /\ Permutation (jq_jobs s) (j :: jq_jobs s') /\
      (exists qi, In j (lane_jobs (get_lane s qi)) /\
                  forall z, In z (lane_jobs (get_lane s qi)) -> job_before z j = false) /\
      (t0 = true -> t1 = true -> forall z, In z (jq_jobs s) -> j_ts j <= j_ts z)
  | None => ret <> 0 /\ s' = s /\ (t0 = true -> t1 = true -> forall z, In z (jq_jobs s) -> now <= j_ts z)
  end.
Proof.
  intros n os s h now t0 t1 ret oj s' Hn H Hs.
  destruct (jop_run_good os _ _ _ _ n (good_init n Hn) H) as (I & C & _).
  destruct (jq_select_ok _ _ _ _ _ _ _ _ I C Hs) as (_ & _ & Hj). destruct oj as [j|].
  - destruct Hj as (-> & P & D & L & Le). repeat split; auto. rewrite P. left; auto.
  - destruct Hj as (-> & R & L). auto.
Qed.

(** C09: a submission is refused only when its queue holds 511 jobs, and never fails otherwise,
    if the configured size is at least 511. *)
Theorem C09_submission_answer_exact : forall n os s h j,
  (511 <= n)%nat -> Z.of_nat n <= 32767 ->
  jop_run (jq_init n) ([], []) os = Ok (s, h) ->
  exists b s', jq_insert s j = Ok (b, s') /\
    (b = false <-> hcount (l_heap (get_lane s (j_periodic j))) = 511%nat) /\
    (b = true -> Permutation (jq_jobs s') (j :: jq_jobs s)) /\ (b = false -> s' = s).
Proof.
  intros n os s h j Hn1 Hn H.
  destruct (jop_run_good os _ _ _ _ n (good_init n Hn) H) as (I & C & _).
  pose proof (jq_inv_get s (j_periodic j) I) as Il.
  destruct (lane_insert_total (get_lane s (j_periodic j)) j Il) as (b & l & E & Hb).
  { destruct C, (j_periodic j); cbn; lia. }
  assert (E' : jq_insert s j = Ok (b, set_lane s (j_periodic j) l)) by (unfold jq_insert; rewrite E; reflexivity).
  destruct (jq_insert_ok _ _ _ _ _ I C E') as (_ & _ & Ht & Hf).
  do 2 eexists. split; [exact E'|]. destruct Il as (_ & Hl & _). unfold JOBQUEUE_MAX_SIZE in Hl.
  split; [|split; auto].
  - split; intros.
    + subst b. destruct (Hf eq_refl); auto.
    + destruct b; auto. assert (hcount (l_heap (get_lane s (j_periodic j))) < 511)%nat by (apply Hb; auto). lia.
  - intros Hb0. destruct (Hf Hb0); auto.
Qed.

(** C09: a configured queue size below 511 turns the refusal into a failed assertion. *)
Theorem C09_small_queue_setting_refuted :
  exists n os, (0 < n < 511)%nat /\ jop_run (jq_init n) ([], []) os = Abort.
Proof. exists 1%nat, [JSubmit (mkJob 1 5 0 0 false); JSubmit (mkJob 2 6 0 0 false)]. split; [lia|vm_compute; reflexivity]. Qed.

(** C09: a periodic job is re-queued for exactly one interval after its start (never in its own past). *)
Theorem C09_periodic_rescheduled : forall n os s h j started s',
  Z.of_nat n <= 32767 ->
  jop_run (jq_init n) ([], []) os = Ok (s, h) ->
  j_periodic j = true -> 0 <= j_interval j -> jq_finish s j started = Ok s' ->
  exists j', Permutation (jq_jobs s') (j' :: jq_jobs s) /\
    j_id j' = j_id j /\ j_prio j' = j_prio j /\ j_interval j' = j_interval j /\ j_periodic j' = true /\
    j_ts j' = started + j_interval j.
Proof.
  intros n os s h j started s' Hn H Hp Hi Hf.
  destruct (jop_run_good os _ _ _ _ n (good_init n Hn) H) as (I & C & _).
  unfold jq_finish in Hf. rewrite Hp in Hf. fold (resched j started) in Hf.
  destruct (jq_insert s (resched j started)) as [[b s2]| |] eqn:E; try discriminate. cbn [obind] in Hf.
  destruct b; [|discriminate]. injection Hf as <-.
  destruct (jq_insert_ok _ _ _ _ _ I C E) as (_ & _ & Ht & _).
  exists (resched j started). split; [auto|]. cbn. repeat split; auto. lia.
Qed.

Definition ex_hist : list jop :=
  [ JSubmit (mkJob 1 50 3 0 false); JSubmit (mkJob 2 50 1 0 false); JSubmit (mkJob 3 40 9 100 true);
    JPollRun 60 61 true true; JPoll 60 true true; JPoll 60 true true; JPoll 60 true true ].
Example C09_example :
  match jop_run (jq_init 512) ([], []) ex_hist with
  | Ok (s, (acc, taken)) =>
      map (fun x => j_id (snd x)) taken = [1; 2; 3] /\ map j_ts (jq_jobs s) = [161] /\ length acc = 4%nat
  | _ => False
  end.
Proof. vm_compute. repeat split. Qed.

(** C10: for every interleaving of any number of submitters and workers, every accepted job is
    either still waiting or was handed out, exactly once. *)
Theorem C10_each_job_handed_out_at_most_once : forall n es x,
  Z.of_nat n <= 32767 -> wrun (world_init n) es = Ok x ->
  Permutation (w_accepted x) (map snd (w_taken x) ++ jq_jobs (w_q x)).
Proof. intros n es x Hn H. apply (wrun_good es _ _ n (wgood_init n Hn) H). Qed.

Theorem C10_distinct_jobs_taken_once : forall n es x,
  Z.of_nat n <= 32767 -> wrun (world_init n) es = Ok x ->
  NoDup (map j_id (w_accepted x)) -> NoDup (map (fun t => j_id (snd t)) (w_taken x)).
Proof.
  intros n es x Hn H N. pose proof (C10_each_job_handed_out_at_most_once n es x Hn H) as P.
  apply (Permutation_map j_id) in P. rewrite map_app, map_map in P.
  apply (Permutation_NoDup P) in N. apply NoDup_app_l in N. exact N.
Qed.

(** C10: no interleaving of enabled steps hits an assertion when the configured size is at least 511. *)
Theorem C10_never_stuck : forall n es, (511 <= n)%nat -> Z.of_nat n <= 32767 -> exists x, wrun (world_init n) es = Ok x.
Proof.
  intros n es H1 H2. pose proof (wgood_init n H2) as G. revert G. generalize (world_init n).
  induction es as [|e es IH]; intros x G; cbn [wrun]; eauto.
  destruct (wstep_total x e n G H1) as [x1 E]. rewrite E. cbn [obind]. apply IH. eapply wstep_good; eauto.
Qed.

(** C10 (due part), what holds: as long as no other worker removes a job, everything worker [w]
    gets is due, whatever is submitted in between and whatever other workers look at. *)
Theorem C10_not_early_unless_overtaken_partial : forall n es x w,
  Z.of_nat n <= 32767 -> Forall (no_other_pop w) es -> wrun (world_init n) es = Ok x ->
  Forall (fun '(w', now, j) => w' = w /\ j_ts j < now) (w_taken x).
Proof.
  intros n es x w Hn Q H.
  destruct (wrun_pending es _ _ w n (wgood_init n Hn) Q Logic.I H) as (new & E & F).
  rewrite E. cbn [world_init w_taken]. rewrite app_nil_r. exact F.
Qed.

(** C10 (due part): refuted in general.  Worker 0 sees job 1 due, worker 1 takes it, worker 0 then
    takes job 2 which is due only at time 1000 although its clock says 10. *)
Theorem C10_never_early_refuted :
  exists es x w now j, wrun (world_init 512) es = Ok x /\ In (w, now, j) (w_taken x) /\
    now < j_ts j /\ (forall t, In t (w_taken x) -> snd (fst t) = now).
Proof.
  set (es := [EvInsert (mkJob 1 5 0 0 false); EvInsert (mkJob 2 1000 0 0 false);
          EvBegin 0 10; EvPeek0 0 true; EvPeek1 0 true;
          EvBegin 1 10; EvPeek0 1 true; EvPeek1 1 true; EvPop 1; EvPop 0]).
  destruct (wrun (world_init 512) es) as [x| |] eqn:E.
  - exists es, x, 0%nat, 10, (mkJob 2 1000 0 0 false). split; auto.
    assert (T : match wrun (world_init 512) es with Ok x => w_taken x = [(0%nat, 10, mkJob 2 1000 0 0 false); (1%nat, 10, mkJob 1 5 0 0 false)] | _ => False end)
      by (vm_compute; reflexivity).
    rewrite E in T. rewrite T. split; [left; reflexivity|]. split; [vm_compute; reflexivity|].
    intros t [<-|[<-|[]]]; reflexivity.
  - exfalso. assert (T : match wrun (world_init 512) es with Ok x => True | _ => False end) by (vm_compute; auto). rewrite E in T. exact T.
  - exfalso. assert (T : match wrun (world_init 512) es with Ok x => True | _ => False end) by (vm_compute; auto). rewrite E in T. exact T.
Qed.

Example C10_example :
  match wrun (world_init 512) [EvInsert (mkJob 1 5 0 0 false); EvBegin 0 10; EvBegin 1 10; EvPeek0 0 true; EvPeek0 1 false;
          EvPeek1 0 true; EvInsert (mkJob 2 3 0 0 false); EvPeek1 1 true; EvPop 0; EvPop 0] with
  | Ok x => map (fun t => j_id (snd t)) (w_taken x) = [2] /\ map j_id (jq_jobs (w_q x)) = [1]
  | _ => False end.
Proof. vm_compute. auto. Qed.

Print Assumptions C09_scheduling_order.
Print Assumptions C09_no_loss_no_duplication_never_early.
Print Assumptions C09_selection_is_earliest.
Print Assumptions C09_submission_answer_exact.
Print Assumptions C09_small_queue_setting_refuted.
Print Assumptions C09_periodic_rescheduled.
Print Assumptions C10_each_job_handed_out_at_most_once.
Print Assumptions C10_distinct_jobs_taken_once.
Print Assumptions C10_never_stuck.
Print Assumptions C10_not_early_unless_overtaken_partial.
Print Assumptions C10_never_early_refuted.
