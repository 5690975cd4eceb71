(** C56: cached messages; C57: limit of parallel messages; C58: once only. *)
From Verif Require Import Base Channel_Model Channel_Spec Channel_Proofs.

(** C56.  The cache never holds more than cache_size messages, as long as nobody lowers cache_size. *)
Theorem C56_bounded_partial : forall k h c,
  sane k -> configs_in sane h -> never_lowers k_size k h -> run h (start k) = Ok c ->
  Z.of_nat (length (cache c)) <= k_size (cfg c).
Proof.
  intros k h c S C N R. destruct (run_bounded h (start k) c) as [B _]; auto. unfold bounded. cbn. destruct S as (_ & ? & _). lia.
Qed.

(** Whatever happens: every message that came in is in exactly one place (given to the callbacks, refused by a callback, known
    before, discarded because the cache was full, expired, waiting in the cache, under way); none is lost, none appears twice. *)
Theorem C56_accounted_partial : forall k h c, run h (start k) = Ok c -> Permutation (arrived h) (everywhere c).
Proof.
  intros k h c R. apply (Permutation_count_occ msg_dec). intros x. fold (cnt x (arrived h)). fold (cnt x (everywhere c)).
  rewrite all_cnt_eq. rewrite (run_cnt x h _ _ R). unfold all_cnt, start, on_the_way. cbn. lia.
Qed.

(** What a check takes out of the cache has a session, and leaves in the order of the policy. *)
Theorem C56_order_partial : forall has room c c',
  sane (cfg c) -> check_msgcache has room c = Ok c' ->
  exists d, pend c' = pend c ++ map IMsg d /\ Forall (fun m => has (m_session m) = true) d /\
    (oldest_first (cfg c) -> cache c = d ++ cache c') /\ (newest_first (cfg c) -> cache c = cache c' ++ rev d).
Proof.
  intros has room c c' S E. unfold check_msgcache in E. destruct (scan _ _ _ _ _) as [d r] eqn:Sc. pose proof (put_ok _ _ _ _ _ E). subst c'.
  exists d. cbn [pend cache]. split; auto. split; [apply (scan_sel _ _ _ _ _ _ _ Sc)|]. split; intros O.
  - apply (scan_fifo _ _ _ _ _ _ _ (fifo_flags _ O) Sc).
  - destruct (lifo_flags _ O). eapply scan_lifo; eauto.
Qed.

(** What follows a received message out of the cache waits for the same session, and leaves in the order of the policy; above the
    limit it is one message at most. *)
Theorem C56_follows_partial : forall e m c c',
  sane (cfg c) -> k_recv (cfg c) = true -> step (e, Arrive m) c = Ok c' ->
  exists d, pend c' = pend c ++ map IMsg d /\ Forall (fun x => m_session x = m_session m /\ e_has e (m_session x) = true) d /\
    (d <> [] -> (oldest_first (cfg c) -> cache c = d ++ cache c') /\ (newest_first (cfg c) -> cache c = cache c' ++ rev d)).
Proof.
  intros e m c c' S R E. cbn [step] in E. unfold take in E.
  destruct (negb (threshold_breached c) && e_has e (m_session m)) eqn:T.
  2:{ exists []. cbn [map]. rewrite app_nil_r. injection E as <-. split.
      - unfold add_msg_to_cache. destruct (k_size (cfg c) <=? _); [|reflexivity].
        destruct (is_purge (cfg c)); [destruct (is_fifo (cfg c)); [destruct (cache c)|destruct (is_lifo (cfg c)); [destruct (rev (cache c))|]]|];
          destruct (is_reject (cfg c)); reflexivity.
      - split; [constructor|]. intros X; congruence. }
  rewrite R in E. unfold handle_in_msg in E. cbv zeta in E. cbn [cache] in E.
  destruct (cache c) as [|x r] eqn:C.
  { exists []. cbn [map]. rewrite app_nil_r. injection E as <-. split; [reflexivity|]. split; [constructor|congruence]. }
  unfold check_msgcache_for in E. cbn [cfg cache] in E. destruct (e_has e (m_session m)) eqn:H; [|rewrite andb_false_r in T; discriminate].
  destruct (scan _ _ _ _ _) as [d rest] eqn:Sc. pose proof (put_ok _ _ _ _ _ E) as Q. subst c'. cbn [pend cache].
  exists d. split; [reflexivity|]. split.
  - pose proof (scan_sel _ _ _ _ _ _ _ Sc) as X. eapply Forall_impl; [|exact X]. cbn beta. intros y Y.
    assert (m_session y = m_session m) by lia. split; auto. congruence.
  - intros _. split; intros O.
    + apply (scan_fifo _ _ _ _ _ _ _ (fifo_flags _ O) Sc).
    + destruct (lifo_flags _ O). eapply scan_lifo; eauto.
Qed.
Example C56_follows_ex :
  let k := mkCfg 33 16 2 1 false true in
  let m u s := mkMsg u s 100 true in
  let c := mkChan k [m 1 7; m 2 7; m 3 8] [] 0 [] [] [] [] [] [] [] in
  exists c', step (mkEnv 0 (fun _ => true) 9, Arrive (m 4 7)) c = Ok c' /\ pend c' = [IMsg (m 1 7); IMsg (m 2 7)] /\ cache c' = [m 3 8].
Proof. cbv zeta. eexists. split; [vm_compute; reflexivity|]. split; vm_compute; reflexivity. Qed.

(** If every waiting message has its session, a check releases all of them. *)
Theorem C56_released_partial : forall k h c has room,
  sane k -> configs_in sane h -> never_lowers k_size k h -> run h (start k) = Ok c ->
  Forall (fun m => has (m_session m) = true) (cache c) -> (length (cache c) <= room)%nat ->
  exists c', check_msgcache has room c = Ok c' /\ cache c' = [] /\
    (oldest_first (cfg c) -> pend c' = pend c ++ map IMsg (cache c)) /\
    (newest_first (cfg c) -> pend c' = pend c ++ map IMsg (rev (cache c))).
Proof.
  intros k h c has room S C N R A L. destruct (run_bounded h (start k) c) as [B S']; auto.
  { unfold bounded. cbn. destruct S as (_ & ? & _). lia. }
  unfold bounded in B. destruct (scan_all (cfg c) (fun m => has (m_session m)) (cache c) S' A B) as [d D].
  unfold check_msgcache. rewrite D. pose proof (scan_perm _ _ _ _ _ _ _ D) as P. rewrite app_nil_r in P.
  unfold put. replace (room <? length d)%nat with false by (apply Permutation_length in P; lia).
  eexists. split; [reflexivity|]. cbn [cache pend]. split; auto. split; intros O.
  - pose proof (scan_fifo _ _ _ _ _ _ _ (fifo_flags _ O) D) as Q. rewrite app_nil_r in Q. congruence.
  - destruct (lifo_flags _ O) as [F _]. pose proof (scan_lifo _ _ _ _ _ _ _ F D) as Q. cbn in Q. rewrite Q, rev_involutive. reflexivity.
Qed.

(** Overflow: a rejecting channel keeps what it has; a purging one gives up the message that would leave next. *)
Theorem C56_overflow_partial : forall c m e,
  sane (cfg c) -> Z.of_nat (length (cache c)) = k_size (cfg c) -> e_has e (m_session m) = false ->
  exists c', step (e, Arrive m) c = Ok c' /\
    (rejecting (cfg c) -> cache c' = cache c /\ dropped c' = dropped c ++ [m]) /\
    (~ rejecting (cfg c) -> oldest_first (cfg c) -> exists o r, cache c = o :: r /\ cache c' = r ++ [m] /\ dropped c' = dropped c ++ [o]) /\
    (~ rejecting (cfg c) -> newest_first (cfg c) -> exists o r, cache c = r ++ [o] /\ cache c' = r ++ [m] /\ dropped c' = dropped c ++ [o]).
Proof.
  intros c m e S L H. cbn [step]. unfold take. rewrite H, andb_false_r. eexists. split; [reflexivity|].
  unfold add_msg_to_cache. replace (k_size (cfg c) <=? Z.of_nat (length (cache c))) with true by lia.
  pose proof S as (_ & Sz & _).
  destruct (sane_over _ S) as [(Rj & R & P)|(Rj & R & P)]; rewrite R, P; cbn [cache dropped].
  - split; [auto|]. split; intros; contradiction.
  - split; [intros; contradiction|]. split; intros _ O.
    + rewrite (fifo_flags _ O). destruct (cache c) as [|o r]; [cbn in L; lia|]. exists o, r. cbn [cache dropped]. auto.
    + destruct (lifo_flags _ O) as [-> ->]. destruct (rev (cache c)) as [|o r] eqn:E.
      { apply (f_equal (@length msg)) in E. rewrite rev_length in E. cbn in E. lia. }
      apply rev_front in E. exists o, (rev r). cbn [cache dropped]. auto.
Qed.

(** witnesses *)
Definition ten := mkCfg 33 10 2 1 true true.
Definition nobody (_ : Z) := false.
Definition only (s x : Z) := x =? s.
Definition everybody (_ : Z) := true.
Definition at_ (t : Z) (has : Z -> bool) : env := mkEnv t has 254.
Definition m1 := mkMsg 1 100 1000 true.
Definition m2 := mkMsg 2 200 1000 true.
Definition m3 := mkMsg 3 200 1000 true.

Example C56_ex :
  let h := [(at_ 1 nobody, Arrive m1); (at_ 2 nobody, Arrive m2); (at_ 3 nobody, Arrive m3); (at_ 4 everybody, Check);
            (at_ 5 everybody, Chain); (at_ 6 everybody, Chain); (at_ 7 nobody, Chain)] in
  sane ten /\ configs_in sane h /\ never_lowers k_size ten h /\ in_order 0 h /\ in_time h (start ten) /\
  exists c, run h (start ten) = Ok c /\ given c = [m1; m2] /\ cache c = [m3] /\
    (exists c2, run (firstn 3 h) (start ten) = Ok c2 /\ cache c2 = [m1; m2; m3] /\ Forall (fun m => everybody (m_session m) = true) (cache c2)).
Proof.
  cbv zeta. split; [unfold sane; cbn; lia|]. split; [repeat constructor|]. split; [cbn; auto|]. split; [cbn; lia|]. split; [vm_compute; intuition discriminate|].
  eexists. split; [vm_compute; reflexivity|]. split; [reflexivity|]. split; [reflexivity|].
  eexists. split; [vm_compute; reflexivity|]. split; [reflexivity|]. repeat constructor.
Qed.
Example C56_overflow_ex :
  exists c, run [(at_ 1 nobody, Arrive m1); (at_ 2 nobody, Arrive m2)] (start (mkCfg 33 2 2 1 true true)) = Ok c /\
    Z.of_nat (length (cache c)) = k_size (cfg c) /\
    exists c', step (at_ 3 nobody, Arrive m3) c = Ok c' /\ cache c' = [m2; m3] /\ dropped c' = [m1].
Proof. eexists. split; [vm_compute; reflexivity|]. split; [reflexivity|]. eexists. split; [vm_compute; reflexivity|]. split; reflexivity. Qed.

(** A message whose session never comes up holds up all messages behind it, although their sessions exist; in either order. *)
Theorem C56_blocked_refuted :
  forall policy, policy = 17 \/ policy = 33 \/ policy = 18 \/ policy = 34 ->
  exists h c m has, run h (start (mkCfg policy 10 2 1 true true)) = Ok c /\ In m (cache c) /\ has (m_session m) = true /\
    forall ts room, Forall (fun t => t < 1000) ts -> run (map (fun t => (mkEnv t has room, Check)) ts) c = Ok c.
Proof.
  intros p P.
  assert (Q : forall (l : list msg) (m : msg), (exists r, front (mkCfg p 10 2 1 true true) l = Some (m1, r)) ->
     Forall (fun x => m_expiry x = 1000) l -> In m l -> m_session m = 200 ->
     run (map (fun x => (at_ 1 nobody, Arrive x)) l) (start (mkCfg p 10 2 1 true true)) =
       Ok (mkChan (mkCfg p 10 2 1 true true) l [] 0 [] [] [] [] [] [] []) ->
     exists h c m has, run h (start (mkCfg p 10 2 1 true true)) = Ok c /\ In m (cache c) /\ has (m_session m) = true /\
       forall ts room, Forall (fun t => t < 1000) ts -> run (map (fun t => (mkEnv t has room, Check)) ts) c = Ok c).
  { intros l m [r Fr] Ex I Se R. eexists. eexists. exists m, (only 200). split; [exact R|]. cbn [cache]. split; auto. split; [rewrite Se; reflexivity|].
    intros ts room F. induction F as [|t ts T F IH]; cbn [map run]; auto. unfold step at 1. unfold check_msgcache. cbn [cfg cache e_has e_room e_now].
    rewrite (scan_blocked _ _ _ _ _ _ _ Fr) by reflexivity. unfold put. cbn [length Nat.ltb Nat.leb].
    replace (room <? 0)%nat with false by (destruct room; reflexivity).
    cbn [obind map app cfg cache pend thr seen awaiting given failed dups dropped expired].
    unfold cleanup_cache, job_msg_uniquety. cbn [cfg cache pend thr seen awaiting given failed dups dropped expired k_unique filter app].
    assert (X : filter (fun m => negb (m_expiry m - t <=? 0)) l = l /\ filter (fun m => m_expiry m - t <=? 0) l = []).
    { clear - Ex T. induction Ex as [|a l A Ex IH]; cbn; auto. rewrite A. replace (1000 - t <=? 0) with false by lia. cbn. destruct IH. split; congruence. }
    destruct X as [-> ->]. exact IH. }
  destruct P as [->|[->|[->| ->]]].
  - apply (Q [m1; m2] m2); [eexists; reflexivity|repeat constructor|cbn; auto|reflexivity|vm_compute; reflexivity].
  - apply (Q [m1; m2] m2); [eexists; reflexivity|repeat constructor|cbn; auto|reflexivity|vm_compute; reflexivity].
  - apply (Q [m2; m1] m2); [eexists; reflexivity|repeat constructor|cbn; auto|reflexivity|vm_compute; reflexivity].
  - apply (Q [m2; m1] m2); [eexists; reflexivity|repeat constructor|cbn; auto|reflexivity|vm_compute; reflexivity].
Qed.

(** After cache_size was lowered below the number of waiting messages none of them leaves, whatever sessions exist. *)
Theorem C56_shrunk_refuted :
  exists h c, run h (start ten) = Ok c /\ configs_in sane h /\ cache c = [m1; m2] /\
    forall ts room, Forall (fun t => t < 1000) ts -> run (map (fun t => (mkEnv t everybody room, Check)) ts) c = Ok c.
Proof.
  exists [(at_ 1 nobody, Arrive m1); (at_ 2 nobody, Arrive m2); (at_ 3 nobody, Config (mkCfg 33 1 2 1 true true))]. eexists.
  split; [vm_compute; reflexivity|]. split. { repeat constructor; cbn; auto; lia. }
  split; [reflexivity|]. intros ts room F. induction F as [|t ts T F IH]; cbn [map run]; auto.
  unfold step at 1. unfold check_msgcache. cbn [cfg cache e_has e_room e_now].
  rewrite scan_over by (cbn; lia). unfold put. cbn [length]. replace (room <? 0)%nat with false by (destruct room; reflexivity).
  cbn [obind map app cfg cache pend thr seen awaiting given failed dups dropped expired].
  unfold cleanup_cache, job_msg_uniquety. cbn [cfg cache pend thr seen awaiting given failed dups dropped expired k_unique filter app m_expiry].
  replace (1000 - t <=? 0) with false by lia. cbn [negb app]. exact IH.
Qed.

(** A message that arrives when the session exists overtakes an older one that still waits. *)
Theorem C56_overtaken_refuted :
  exists h c, oldest_first ten /\ arrived h = [m2; m3] /\ m_session m2 = m_session m3 /\ run h (start ten) = Ok c /\ given c = [m3; m2].
Proof.
  exists [(at_ 1 nobody, Arrive m2); (at_ 2 everybody, Arrive m3); (at_ 3 everybody, Chain)]. eexists.
  split; [right; reflexivity|]. split; [reflexivity|]. split; [reflexivity|]. split; [vm_compute; reflexivity|]. reflexivity.
Qed.

(** More waiting messages than an event chain has places: releasing them ends the process. *)
Theorem C56_abort_refuted :
  exists h, sane (mkCfg 33 300 2 1 true true) /\ run h (start (mkCfg 33 300 2 1 true true)) = Abort.
Proof.
  exists (repeat (at_ 1 nobody, Arrive m1) 300 ++ [(at_ 2 everybody, Check)]). split; [unfold sane; cbn; lia|]. vm_compute; reflexivity.
Qed.

(** C57.  The limit of parallel messages holds nothing back as long as nobody lowers it: a message whose session exists is
    handled at once. *)
Theorem C57_never_blocks_partial : forall k h c e m,
  sane k -> never_lowers k_max k h -> run h (start k) = Ok c -> e_has e (m_session m) = true -> k_recv (cfg c) = false ->
  exists c', step (e, Arrive m) c = Ok c' /\ (m_ok m = true -> given c' = given c ++ [m]) /\ cache c' = cache c.
Proof.
  intros k h c e m S N R H Sd.
  assert (T : thr_ok c). { eapply run_thr; [| |eauto]; auto. unfold thr_ok. cbn. destruct S as (_ & _ & ?). lia. }
  cbn [step]. unfold take, threshold_breached. unfold thr_ok in T. replace (k_max (cfg c) <? thr c) with false by lia.
  rewrite H, Sd. cbn [negb andb]. eexists. split; [reflexivity|]. unfold handle_out_msg. cbn [given cache]. split; auto. intros ->. reflexivity.
Qed.

(** With a limit of one, any number of messages can be under way without an answer. *)
Definition lim := mkCfg 33 10 1 2 true false.
Definition burst (n : nat) : list (env * ev) :=
  flat_map (fun i => [(at_ 1 everybody, Arrive (mkMsg (Z.of_nat i) 100 1000 true)); (at_ 1 everybody, Chain)]) (seq 0 n).
Lemma run_app h1 h2 c : run (h1 ++ h2) c = obind (run h1 c) (run h2).
Proof. revert c; induction h1 as [|a h IH]; intros c; cbn [run app obind]; auto. destruct (step a c); cbn [obind]; auto. Qed.
Lemma burst1 u t s a g : 0 <= t <= 1 ->
  step (at_ 1 everybody, Arrive (mkMsg u 100 1000 true)) (mkChan lim [] [] t s a g [] [] [] []) =
  Ok (mkChan lim [] [IStore u] (threshold_increase lim t) s a (g ++ [mkMsg u 100 1000 true]) [] [] [] []).
Proof.
  intros T. unfold step, take, threshold_breached. cbn [cfg thr]. change (k_max lim) with 1. replace (1 <? t) with false by lia. reflexivity.
Qed.
Lemma burst2 u t s a g : existsb (Z.eqb u) a = false ->
  step (at_ 1 everybody, Chain) (mkChan lim [] [IStore u] t s a g [] [] [] []) =
  Ok (mkChan lim [] [] (threshold_increase lim t) s (a ++ [u]) g [] [] [] []).
Proof. intros T. unfold step, redelivery_set. cbn [pend awaiting]. rewrite T. reflexivity. Qed.
Lemma burst_run n : exists t s, 0 <= t <= 1 /\
  run (burst n) (start lim) = Ok (mkChan lim [] [] t s (map Z.of_nat (seq 0 n)) (map (fun i => mkMsg (Z.of_nat i) 100 1000 true) (seq 0 n)) [] [] [] []).
Proof.
  induction n as [|n (t & s & T & R)].
  - exists 0, []. split; [lia|reflexivity].
  - unfold burst in *. rewrite seq_S, flat_map_app, run_app, R. cbn [obind plus flat_map app]. cbn [run]. rewrite burst1 by exact T. cbn [obind].
    rewrite burst2.
    + cbn [obind]. rewrite !map_app. cbn [map]. eexists. eexists. split; [|reflexivity].
      unfold threshold_increase. change (k_max lim) with 1. destruct (t <? 1) eqn:A; [destruct (t + 1 <? 1) eqn:B|rewrite A]; lia.
    + apply not_true_is_false. intros E. apply existsb_exists in E. destruct E as (x & I & Q). apply Z.eqb_eq in Q. subst x.
      apply in_map_iff in I. destruct I as (y & Y & I). apply in_seq in I. lia.
Qed.
Theorem C57_unlimited_refuted : forall n, exists h c,
  sane lim /\ k_max lim = 1 /\ run h (start lim) = Ok c /\ length (given c) = n /\ length (awaiting c) = n /\ cache c = [].
Proof.
  intros n. destruct (burst_run n) as (t & s & _ & R). exists (burst n). eexists. split; [unfold sane; cbn; lia|]. split; [reflexivity|].
  split; [exact R|]. cbn [given awaiting cache]. rewrite !map_length, !seq_length. auto.
Qed.

(** Lowering the limit can stop a channel for ever: nothing is under way, and yet nothing is sent again, whatever happens short of
    another change of settings. *)
Theorem C57_stuck_refuted :
  exists h c, configs_in sane h /\ run h (start (mkCfg 33 10 5 2 true false)) = Ok c /\ awaiting c = [] /\ pend c = [] /\
    forall h2 c2, Forall quiet h2 -> run h2 c = Ok c2 -> given c2 = given c.
Proof.
  exists (flat_map (fun i => [(at_ 1 everybody, Arrive (mkMsg i 100 1000 true)); (at_ 1 everybody, Chain); (at_ 1 everybody, Response i)]) [1;2;3;4;5]
      ++ [(at_ 2 everybody, Config (mkCfg 33 10 1 2 true false))]).
  eexists. split. { repeat constructor; cbn; auto; lia. } split; [vm_compute; reflexivity|]. split; [reflexivity|]. split; [reflexivity|].
  intros h2 c2 Q R. eapply run_stuck; eauto. unfold stuck. cbn. repeat split; auto. 
Qed.
Example C57_ex :
  exists h c, sane lim /\ never_lowers k_max lim h /\ run h (start lim) = Ok c /\ k_recv (cfg c) = false /\ awaiting c = [7] /\ thr c = 1.
Proof.
  exists [(at_ 1 everybody, Arrive (mkMsg 7 100 1000 true)); (at_ 1 everybody, Chain)]. eexists. split; [unfold sane; cbn; lia|].
  split; [cbn; auto|]. split; [vm_compute; reflexivity|]. repeat split.
Qed.

(** C58.  With settings made by np_set_mx_properties: if a uuid always comes with the same time of expiry and nothing is looked at
    after it expired, the callbacks get each uuid at most once, for every order of arrivals, checks and sessions. *)
Theorem C58_once_partial : forall (expiry_of : Z -> Z) k h c t,
  k_unique k = true -> k_recv k = true -> configs_in (fun k' => k_unique k' = true /\ k_recv k' = true) h ->
  Forall (fun m => m_expiry m = expiry_of (m_uuid m)) (arrived h) ->
  in_order t h -> in_time h (start k) -> run h (start k) = Ok c -> NoDup (map m_uuid (given c)).
Proof.
  intros f k h c t U Rc C F O T R. destruct (once_run f h t (start k) c) as [t' [_ N _ _]]; auto.
  constructor; cbn; auto; try constructor; try contradiction; repeat constructor.
Qed.
Example C58_ex :
  let h := [(at_ 1 nobody, Arrive m1); (at_ 2 everybody, Arrive m2); (at_ 3 everybody, Arrive m2); (at_ 4 everybody, Check);
            (at_ 5 everybody, Chain); (at_ 999 everybody, Arrive m1)] in
  Forall (fun m => m_expiry m = 1000) (arrived h) /\ in_order 0 h /\ in_time h (start ten) /\
  exists c, run h (start ten) = Ok c /\ given c = [m2; m1] /\ dups c = [m2; m1].
Proof.
  cbv zeta. split; [repeat constructor|]. split; [cbn; lia|]. split; [vm_compute; intuition discriminate|].
  eexists. split; [vm_compute; reflexivity|]. split; reflexivity.
Qed.

(** Without a call of np_set_mx_properties nothing is remembered. *)
Theorem C58_default_refuted :
  exists h c, run h (start (mkCfg 33 16 2 1 false true)) = Ok c /\ given c = [m1; m1].
Proof. exists [(at_ 1 everybody, Arrive m1); (at_ 2 everybody, Arrive m1)]. eexists. split; vm_compute; reflexivity. Qed.

(** A sender that gets no acknowledgement sends a copy with a later time stamp (np_comp_msgproperty.c:966-970); if it arrives after
    the first one expired, it is given again: both were in time. *)
Theorem C58_resent_refuted :
  exists h c a b, m_uuid a = m_uuid b /\ in_order 0 h /\ in_time h (start ten) /\ run h (start ten) = Ok c /\ given c = [a; b].
Proof.
  exists [(at_ 10 everybody, Arrive (mkMsg 1 100 20 true)); (at_ 21 everybody, Check); (at_ 22 everybody, Arrive (mkMsg 1 100 35 true))].
  eexists. exists (mkMsg 1 100 20 true), (mkMsg 1 100 35 true). split; [reflexivity|]. split; [cbn; lia|]. split; [vm_compute; intuition discriminate|].
  split; vm_compute; reflexivity.
Qed.

(** A message that cannot be decrypted still uses up its uuid: the genuine message with that uuid is then never given. *)
Theorem C58_suppressed_refuted :
  exists h c m, In m (arrived h) /\ m_ok m = true /\ run h (start ten) = Ok c /\ given c = [] /\ dups c = [m].
Proof.
  exists [(at_ 1 everybody, Arrive (mkMsg 1 100 1000 false)); (at_ 2 everybody, Arrive m1)]. eexists. exists m1.
  split; [cbn; auto|]. split; [reflexivity|]. split; [vm_compute; reflexivity|]. split; reflexivity.
Qed.

Print Assumptions C56_bounded_partial.
Print Assumptions C56_accounted_partial.
Print Assumptions C56_order_partial.
Print Assumptions C56_follows_partial.
Print Assumptions C56_released_partial.
Print Assumptions C56_overflow_partial.
Print Assumptions C56_blocked_refuted.
Print Assumptions C56_shrunk_refuted.
Print Assumptions C56_overtaken_refuted.
Print Assumptions C56_abort_refuted.
Print Assumptions C57_never_blocks_partial.
Print Assumptions C57_unlimited_refuted.
Print Assumptions C57_stuck_refuted.
Print Assumptions C58_once_partial.
Print Assumptions C58_default_refuted.
Print Assumptions C58_resent_refuted.
Print Assumptions C58_suppressed_refuted.
