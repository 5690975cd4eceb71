From Verif Require Import Base Channel_Model Channel_Spec.

Lemma msg_dec (a b : msg) : {a = b} + {a <> b}.
Proof. decide equality; try apply Z.eq_dec. apply Bool.bool_dec. Defined.

Lemma fifo_flags k : oldest_first k -> is_fifo k = true.
Proof. unfold is_fifo. intros [-> | ->]; reflexivity. Qed.
Lemma lifo_flags k : newest_first k -> is_fifo k = false /\ is_lifo k = true.
Proof. unfold is_fifo, is_lifo. intros [-> | ->]; split; reflexivity. Qed.
Lemma sane_cases k : sane k -> oldest_first k \/ newest_first k.
Proof. unfold oldest_first, newest_first. intros ([H|[H|[H|[H|[]]]]] & _); auto. Qed.
Lemma sane_over k : sane k -> (rejecting k /\ is_reject k = true /\ is_purge k = false) \/ (~ rejecting k /\ is_reject k = false /\ is_purge k = true).
Proof.
  unfold rejecting, is_reject, is_purge. intros ([H|[H|[H|[H|[]]]]] & _); rewrite <- H.
  - left; auto.
  - right. split; [lia|auto].
  - left; auto.
  - right. split; [lia|auto].
Qed.

Lemma rev_front {A} (l : list A) m r : rev l = m :: r -> l = rev r ++ [m].
Proof. intros E. rewrite <- (rev_involutive l), E. reflexivity. Qed.

Lemma front_fifo k l m r : is_fifo k = true -> front k l = Some (m, r) -> l = m :: r.
Proof. unfold front. intros ->. destruct l; [discriminate|]. intros [= -> ->]. auto. Qed.
Lemma front_lifo k l m r : is_fifo k = false -> front k l = Some (m, r) -> l = r ++ [m].
Proof.
  unfold front. intros ->. destruct (is_lifo k); [|discriminate]. destruct (rev l) as [|x y] eqn:E; [discriminate|].
  intros [= -> <-]. apply rev_front; auto.
Qed.
Lemma front_perm k l m r : front k l = Some (m, r) -> Permutation l (m :: r).
Proof.
  destruct (is_fifo k) eqn:F; intros E.
  - rewrite (front_fifo k l m r F E). auto.
  - rewrite (front_lifo k l m r F E). symmetry. apply Permutation_cons_append.
Qed.

Lemma scan_perm k sel stop n l d r : scan k sel stop n l = (d, r) -> Permutation l (d ++ r).
Proof.
  revert l d r. induction n as [|n IH]; intros l d r; cbn [scan].
  - intros [= <- <-]. auto.
  - destruct (Z.of_nat (S n) <=? k_size k); [|intros [= <- <-]; auto].
    destruct (front k l) as [[m l']|] eqn:F; [|intros [= <- <-]; auto].
    destruct (sel m).
    + pose proof (front_perm k l m l' F) as P. destruct l' as [|x y].
      * intros [= <- <-]. auto.
      * destruct stop; [intros [= <- <-]; auto|]. destruct (scan k sel false n (x :: y)) as [d' r'] eqn:E.
        intros [= <- <-]. rewrite P. cbn. constructor. eauto.
    + destruct stop; [intros [= <- <-]; auto|]. apply IH.
Qed.
Lemma scan_sel k sel stop n l d r : scan k sel stop n l = (d, r) -> Forall (fun m => sel m = true) d.
Proof.
  revert l d r. induction n as [|n IH]; intros l d r; cbn [scan].
  - intros [= <- <-]. auto.
  - destruct (Z.of_nat (S n) <=? k_size k); [|intros [= <- <-]; auto].
    destruct (front k l) as [[m l']|] eqn:F; [|intros [= <- <-]; auto].
    destruct (sel m) eqn:S.
    + destruct l' as [|x y].
      * intros [= <- <-]. auto.
      * destruct stop; [intros [= <- <-]; auto|]. destruct (scan k sel false n (x :: y)) as [d' r'] eqn:E.
        intros [= <- <-]. constructor; eauto.
    + destruct stop; [intros [= <- <-]; auto|]. apply IH.
Qed.
Lemma scan_fifo k sel stop n l d r : is_fifo k = true -> scan k sel stop n l = (d, r) -> l = d ++ r.
Proof.
  intros Fi. revert l d r. induction n as [|n IH]; intros l d r; cbn [scan].
  - intros [= <- <-]. auto.
  - destruct (Z.of_nat (S n) <=? k_size k); [|intros [= <- <-]; auto].
    destruct (front k l) as [[m l']|] eqn:F; [|intros [= <- <-]; auto].
    destruct (sel m).
    + pose proof (front_fifo k l m l' Fi F). subst l. destruct l' as [|x y].
      * intros [= <- <-]. auto.
      * destruct stop; [intros [= <- <-]; auto|]. destruct (scan k sel false n (x :: y)) as [d' r'] eqn:E.
        intros [= <- <-]. cbn. f_equal. eauto.
    + destruct stop; [intros [= <- <-]; auto|]. apply IH.
Qed.
Lemma scan_lifo k sel stop n l d r : is_fifo k = false -> scan k sel stop n l = (d, r) -> l = r ++ rev d.
Proof.
  intros Fi. revert l d r. induction n as [|n IH]; intros l d r; cbn [scan].
  - intros [= <- <-]. cbn. rewrite app_nil_r. auto.
  - destruct (Z.of_nat (S n) <=? k_size k); [|intros [= <- <-]; cbn; rewrite app_nil_r; auto].
    destruct (front k l) as [[m l']|] eqn:F; [|intros [= <- <-]; cbn; rewrite app_nil_r; auto].
    destruct (sel m).
    + pose proof (front_lifo k l m l' Fi F). subst l. destruct l' as [|x y].
      * intros [= <- <-]. auto.
      * destruct stop; [intros [= <- <-]; auto|]. destruct (scan k sel false n (x :: y)) as [d' r'] eqn:E.
        intros [= <- <-]. apply IH in E. cbn [rev]. rewrite app_assoc. f_equal. exact E.
    + destruct stop; [intros [= <- <-]; cbn; rewrite app_nil_r; auto|]. apply IH.
Qed.
Lemma front_some k l : sane k -> l <> [] -> exists m r, front k l = Some (m, r).
Proof.
  intros S N. unfold front. destruct (sane_cases k S) as [O|O].
  - rewrite (fifo_flags k O). destruct l; [congruence|]. eauto.
  - destruct (lifo_flags k O) as [-> ->]. destruct (rev l) eqn:E; eauto.
    exfalso. apply N. rewrite <- (rev_involutive l), E. reflexivity.
Qed.
Lemma scan_all k sel l : sane k -> Forall (fun m => sel m = true) l -> Z.of_nat (length l) <= k_size k ->
  exists d, scan k sel false (length l) l = (d, []).
Proof.
  intros Sa. remember (length l) as n eqn:L. revert l L. induction n as [|n IH]; intros l L A Le.
  - destruct l; [|discriminate]. cbn. eauto.
  - cbn [scan]. replace (Z.of_nat (S n) <=? k_size k) with true by lia.
    assert (N : l <> []) by (intros ->; discriminate).
    destruct (front_some k l Sa N) as (m & r & F). rewrite F.
    pose proof (front_perm k l m r F) as P.
    apply (Permutation_Forall P) in A. inversion A as [|? ? A1 A2]; subst. rewrite A1.
    destruct r as [|x y]; [eauto|].
    destruct (IH (x :: y)) as [d D]; auto.
    + apply Permutation_length in P. cbn in *. lia.
    + lia.
    + rewrite D. eauto.
Qed.
Lemma scan_blocked k sel stop n l m r : front k l = Some (m, r) -> sel m = false -> scan k sel stop n l = ([], l).
Proof.
  intros F Se. induction n as [|n IH]; cbn [scan]; auto. destruct (Z.of_nat (S n) <=? k_size k); auto.
  rewrite F, Se. destruct stop; auto.
Qed.
Lemma scan_over k sel stop l : k_size k < Z.of_nat (length l) -> scan k sel stop (length l) l = ([], l).
Proof. intros H. destruct l as [|m l]; cbn [scan length]; auto. cbn [length] in H. replace (Z.of_nat (S (length l)) <=? k_size k) with false by lia. auto. Qed.
Lemma scan_len k sel stop n l d r : scan k sel stop n l = (d, r) -> (length r <= length l)%nat.
Proof. intros E. apply scan_perm in E. apply Permutation_length in E. rewrite app_length in E. lia. Qed.

(** parts of the state that do not change *)
Lemma put_ok room ds c rest c' : put room ds c rest = Ok c' ->
  c' = mkChan (cfg c) rest (pend c ++ map IMsg ds) (thr c) (seen c) (awaiting c) (given c) (failed c) (dups c) (dropped c) (expired c).
Proof. unfold put. destruct (room <? length ds)%nat; [discriminate|]. intros [= <-]. auto. Qed.
Lemma way_msgs ds : flat_map (fun i => match i with IMsg m => [m] | _ => [] end) (map IMsg ds) = ds.
Proof. induction ds; cbn; congruence. Qed.

Definition cnt (x : msg) (l : list msg) : nat := count_occ msg_dec l x.
Lemma cnt_app x a b : cnt x (a ++ b) = (cnt x a + cnt x b)%nat.
Proof. apply count_occ_app. Qed.
Lemma cnt_nil x : cnt x [] = 0%nat.
Proof. reflexivity. Qed.
Lemma cnt_perm x a b : Permutation a b -> cnt x a = cnt x b.
Proof. intros P. apply (Permutation_count_occ msg_dec a b). auto. Qed.
Lemma cnt_filter x p l : (cnt x (filter p l) + cnt x (filter (fun m => negb (p m)) l) = cnt x l)%nat.
Proof.
  induction l as [|a l IH]; cbn; auto. destruct (p a); cbn; unfold cnt in *; cbn; destruct (msg_dec a x); lia.
Qed.
Lemma cnt_rev x l : cnt x (rev l) = cnt x l.
Proof. apply cnt_perm. symmetry. apply Permutation_rev. Qed.

Definition all_cnt x c := (cnt x (given c) + cnt x (failed c) + cnt x (dups c) + cnt x (dropped c) + cnt x (expired c) + cnt x (cache c) + cnt x (on_the_way c))%nat.
Lemma all_cnt_eq x c : cnt x (everywhere c) = all_cnt x c.
Proof. unfold everywhere, all_cnt. rewrite !cnt_app. lia. Qed.

Lemma put_cnt x room ds c rest c' : Permutation (cache c) (ds ++ rest) -> put room ds c rest = Ok c' -> all_cnt x c' = all_cnt x c.
Proof.
  intros P E. apply put_ok in E. subst c'. unfold all_cnt, on_the_way. cbn [given failed dups dropped expired cache pend].
  rewrite flat_map_app, way_msgs. rewrite (cnt_perm x _ _ P), !cnt_app. lia.
Qed.
Lemma add_cnt x m c : all_cnt x (add_msg_to_cache m c) = (cnt x [m] + all_cnt x c)%nat.
Proof.
  unfold add_msg_to_cache. destruct (k_size (cfg c) <=? Z.of_nat (length (cache c))).
  2:{ unfold all_cnt, on_the_way. cbn [given failed dups dropped expired cache pend]. rewrite cnt_app. lia. }
  set (pr := if is_purge (cfg c) then _ else _).
  assert (H : (cnt x (fst pr) + cnt x (snd pr) = cnt x (cache c))%nat).
  { unfold pr. destruct (is_purge (cfg c)); [|cbn [fst snd]; rewrite cnt_nil; lia]. destruct (is_fifo (cfg c)).
    - destruct (cache c) as [|o r]; cbn [fst snd]; auto. change (o :: r) with ([o] ++ r). rewrite cnt_app. lia.
    - destruct (is_lifo (cfg c)); [|cbn [fst snd]; rewrite cnt_nil; lia]. destruct (rev (cache c)) as [|o r] eqn:E; cbn [fst snd].
      + rewrite <- (rev_involutive (cache c)), E. reflexivity.
      + apply rev_front in E. rewrite E, cnt_app. lia. }
  clearbody pr. destruct pr as [ch dr]. cbn [fst snd] in H.
  destruct (is_reject (cfg c)); unfold all_cnt, on_the_way; cbn [given failed dups dropped expired cache pend]; rewrite !cnt_app; lia.
Qed.
Lemma for_cnt x has t room c c' : check_msgcache_for has t room c = Ok c' -> all_cnt x c' = all_cnt x c.
Proof.
  unfold check_msgcache_for. destruct (has t); [|intros [= <-]; auto].
  destruct (scan _ _ _ _ _) as [d r] eqn:E. apply scan_perm in E. intros. eapply put_cnt; eauto.
Qed.
Lemma take_cnt x has room m c c' : take has room m c = Ok c' -> all_cnt x c' = (cnt x [m] + all_cnt x c)%nat.
Proof.
  unfold take. destruct (negb (threshold_breached c) && has (m_session m)).
  - destruct (k_recv (cfg c)).
    + unfold handle_in_msg. set (c1 := mkChan _ _ _ _ _ _ _ _ _ _ _).
      assert (H : all_cnt x c1 = (cnt x [m] + all_cnt x c)%nat).
      { unfold c1, all_cnt, on_the_way. cbn [given failed dups dropped expired cache pend].
        destruct (k_unique (cfg c) && known (m_uuid m) (seen c)), (m_ok m); cbn [negb andb]; rewrite ?cnt_app; lia. }
      destruct (cache c1) eqn:Ec.
      * intros [= <-]. auto.
      * intros E. apply (for_cnt x) in E. congruence.
    + intros [= <-]. unfold handle_out_msg, all_cnt, on_the_way. cbn [given failed dups dropped expired cache pend].
      rewrite flat_map_app.
      assert (Z0 : forall b : bool, cnt x (flat_map (fun i => match i with IMsg m => [m] | _ => [] end) (if b then [IStore (m_uuid m)] else [])) = 0%nat)
        by (intros []; reflexivity).
      rewrite cnt_app, Z0. destruct (m_ok m); rewrite ?cnt_app; lia.
  - intros [= <-]. apply add_cnt.
Qed.
Lemma step_cnt x a c c' : step a c = Ok c' -> all_cnt x c' = (cnt x (arrived [a]) + all_cnt x c)%nat.
Proof.
  destruct a as [e a]. unfold arrived. cbn [flat_map snd app]. destruct a; cbn [step]; rewrite ?app_nil_r.
  - apply take_cnt.
  - destruct (pend c) as [|i r] eqn:P; [intros [= <-]; reflexivity|].
    set (c1 := mkChan _ _ _ _ _ _ _ _ _ _ _). intros E.
    assert (H : all_cnt x c = (match i with IMsg m => cnt x [m] | _ => 0 end + all_cnt x c1)%nat).
    { unfold all_cnt, on_the_way, c1. cbn [given failed dups dropped expired cache pend]. rewrite P. cbn [flat_map]. rewrite cnt_app.
      destruct i; [lia|]. change (cnt x []) with 0%nat. lia. }
    rewrite H. destruct i.
    + apply (take_cnt x) in E. rewrite E. cbn [cnt count_occ]. lia.
    + injection E as <-. unfold redelivery_set. destruct (existsb _ _); cbn [cnt count_occ]; try lia.
      unfold all_cnt, on_the_way, c1. cbn [given failed dups dropped expired cache pend]. lia.
  - unfold check_msgcache. destruct (scan _ _ _ _ _) as [d r] eqn:E. destruct (put _ _ _ _) as [c1| |] eqn:Pt; cbn [obind]; try discriminate.
    intros [= <-]. apply scan_perm in E. apply (put_cnt x) in Pt; auto. rewrite <- Pt. cbn [cnt count_occ plus].
    assert (Q : all_cnt x (cleanup_cache (e_now e) c1) = all_cnt x c1).
    { unfold cleanup_cache, all_cnt, on_the_way. cbn [given failed dups dropped expired cache pend]. rewrite cnt_app.
      pose proof (cnt_filter x (fun m => m_expiry m - e_now e <=? 0) (cache c1)). lia. }
    rewrite <- Q. unfold job_msg_uniquety. destruct (k_unique _); reflexivity.
  - intros [= <-]. unfold response_handler_set. destruct (existsb _ _); reflexivity.
  - intros [= <-]. reflexivity.
Qed.
Lemma run_cnt x h c c' : run h c = Ok c' -> all_cnt x c' = (cnt x (arrived h) + all_cnt x c)%nat.
Proof.
  revert c. induction h as [|a h IH]; intros c; cbn [run].
  - intros [= <-]. reflexivity.
  - destruct (step a c) as [c1| |] eqn:E; cbn [obind]; try discriminate. intros R. rewrite (IH _ R).
    rewrite (step_cnt x a c c1 E). change (arrived (a :: h)) with (arrived ([a] ++ h)). unfold arrived. rewrite flat_map_app, cnt_app. lia.
Qed.

(** configuration of the state *)
Lemma put_cfg room ds c rest c' : put room ds c rest = Ok c' -> cfg c' = cfg c.
Proof. intros E. apply put_ok in E. subst. auto. Qed.
Lemma for_cfg has t room c c' : check_msgcache_for has t room c = Ok c' -> cfg c' = cfg c /\ thr c' = thr c /\ seen c' = seen c /\ given c' = given c /\ awaiting c' = awaiting c.
Proof.
  unfold check_msgcache_for. destruct (has t); [|intros [= <-]; auto].
  destruct (scan _ _ _ _ _) as [d r]. intros E. apply put_ok in E. subst. auto.
Qed.
Lemma add_cfg m c : cfg (add_msg_to_cache m c) = cfg c /\ thr (add_msg_to_cache m c) = thr c /\ seen (add_msg_to_cache m c) = seen c /\
  given (add_msg_to_cache m c) = given c /\ awaiting (add_msg_to_cache m c) = awaiting c /\ pend (add_msg_to_cache m c) = pend c.
Proof.
  unfold add_msg_to_cache. destruct (k_size (cfg c) <=? _); [|cbn; auto 10].
  destruct (if is_purge (cfg c) then _ else _) as [ch dr]. destruct (is_reject (cfg c)); cbn; auto 10.
Qed.
Lemma take_cfg has room m c c' : take has room m c = Ok c' -> cfg c' = cfg c.
Proof.
  unfold take. destruct (negb _ && _).
  - destruct (k_recv (cfg c)).
    + unfold handle_in_msg. set (c1 := mkChan _ _ _ _ _ _ _ _ _ _ _). destruct (cache c1) eqn:E.
      * intros [= <-]. auto.
      * intros H. apply for_cfg in H. destruct H as (-> & _). auto.
    + intros [= <-]. auto.
  - intros [= <-]. apply add_cfg.
Qed.
Lemma step_cfg a c c' : step a c = Ok c' -> cfg c' = match snd a with Config k => k | _ => cfg c end.
Proof.
  destruct a as [e a]. cbn [snd]. destruct a; cbn [step].
  - apply take_cfg.
  - destruct (pend c) as [|i r]; [intros [= <-]; auto|]. destruct i.
    + intros E. apply take_cfg in E. auto.
    + intros [= <-]. unfold redelivery_set. destruct (existsb _ _); auto.
  - unfold check_msgcache. destruct (scan _ _ _ _ _) as [d r]. destruct (put _ _ _ _) as [c1| |] eqn:E; cbn [obind]; try discriminate.
    intros [= <-]. apply put_cfg in E. unfold job_msg_uniquety, cleanup_cache. cbn [cfg]. destruct (k_unique _); cbn; auto.
  - intros [= <-]. unfold response_handler_set. destruct (existsb _ _); auto.
  - intros [= <-]. auto.
Qed.

(** bound of the cache *)
Definition bounded (c : chan) := Z.of_nat (length (cache c)) <= k_size (cfg c).
Lemma filter_len {A} (p : A -> bool) l : (length (filter p l) <= length l)%nat.
Proof. induction l; cbn; auto. destruct (p a); cbn; lia. Qed.
Lemma add_bounded m c : sane (cfg c) -> bounded c -> bounded (add_msg_to_cache m c).
Proof.
  intros S B. unfold bounded in *. unfold add_msg_to_cache.
  destruct (k_size (cfg c) <=? Z.of_nat (length (cache c))) eqn:F; cbn [cache cfg].
  2:{ rewrite app_length. cbn. lia. }
  destruct (sane_over _ S) as [(_ & R & P)|(_ & R & P)]; rewrite P, R.
  - cbn [cache cfg]. lia.
  - destruct S as (S1 & S2 & S3). destruct (sane_cases _ (conj S1 (conj S2 S3))) as [O|O].
    + rewrite (fifo_flags _ O). destruct (cache c) as [|o r]; cbn [cache cfg]; rewrite ?app_length; cbn in *; lia.
    + destruct (lifo_flags _ O) as [-> ->]. destruct (rev (cache c)) as [|o r] eqn:E.
      * cbn [cache cfg]. cbn. lia.
      * apply rev_front in E. rewrite E in B. cbn [cache cfg]. rewrite app_length in *. cbn in *. lia.
Qed.
Lemma for_bounded has t room c c' : bounded c -> check_msgcache_for has t room c = Ok c' -> bounded c'.
Proof.
  intros B. unfold check_msgcache_for. destruct (has t); [|intros [= <-]; auto].
  destruct (scan _ _ _ _ _) as [d r] eqn:E. intros H. apply put_ok in H. subst. apply scan_len in E. unfold bounded in *. cbn. lia.
Qed.
Lemma take_bounded has room m c c' : sane (cfg c) -> bounded c -> take has room m c = Ok c' -> bounded c'.
Proof.
  intros S B. unfold take. destruct (negb _ && _).
  - destruct (k_recv (cfg c)).
    + unfold handle_in_msg. set (c1 := mkChan _ _ _ _ _ _ _ _ _ _ _). destruct (cache c1) eqn:E.
      * intros [= <-]. auto.
      * intros H. eapply for_bounded; [|eauto]. exact B.
    + intros [= <-]. exact B.
  - intros [= <-]. apply add_bounded; auto.
Qed.
Lemma step_bounded a c c' : sane (cfg c) -> bounded c -> step a c = Ok c' ->
  (forall k, snd a = Config k -> k_size (cfg c) <= k_size k) -> bounded c'.
Proof.
  destruct a as [e a]. cbn [snd]. intros S B E M. destruct a; cbn [step] in E.
  - eapply take_bounded; eauto.
  - destruct (pend c) as [|i r]; [injection E as <-; auto|]. destruct i.
    + eapply take_bounded; [| |eauto]; auto.
    + injection E as <-. unfold redelivery_set. destruct (existsb _ _); auto.
  - unfold check_msgcache in E. destruct (scan _ _ _ _ _) as [d r] eqn:Sc. destruct (put _ _ _ _) as [c1| |] eqn:Pt; cbn [obind] in E; try discriminate.
    injection E as <-. apply put_ok in Pt. apply scan_len in Sc. subst c1.
    unfold bounded, job_msg_uniquety, cleanup_cache in *. cbn [cfg cache].
    pose proof (filter_len (fun m => negb (m_expiry m - e_now e <=? 0)) r).
    destruct (k_unique _); cbn [cfg cache]; lia.
  - injection E as <-. unfold response_handler_set. destruct (existsb _ _); auto.
  - injection E as <-. unfold bounded in *. cbn. specialize (M k eq_refl). lia.
Qed.
Lemma run_bounded h c c' : sane (cfg c) -> bounded c -> configs_in sane h -> never_lowers k_size (cfg c) h -> run h c = Ok c' ->
  bounded c' /\ sane (cfg c').
Proof.
  revert c. induction h as [|a h IH]; intros c S B C N; cbn [run].
  - intros [= <-]. auto.
  - destruct (step a c) as [c1| |] eqn:E; cbn [obind]; try discriminate.
    inversion C as [|? ? C1 C2]; subst. cbn [never_lowers] in N.
    pose proof (step_cfg a c c1 E) as K.
    assert (B1 : bounded c1).
    { eapply step_bounded; eauto. intros k Hk. rewrite Hk in N. tauto. }
    apply IH; auto.
    + rewrite K. destruct (snd a); auto.
    + rewrite K. destruct (snd a); tauto.
Qed.

(** the limit *)
Definition thr_ok (c : chan) := 0 <= thr c <= k_max (cfg c).
Lemma inc_ok k t : 0 <= t <= k_max k -> 0 <= threshold_increase k t <= k_max k.
Proof. unfold threshold_increase. destruct (t <? k_max k) eqn:E; lia. Qed.
Lemma dec_ok t m : 0 <= t <= m -> 0 <= threshold_decrease t <= m.
Proof. unfold threshold_decrease. destruct (0 <? t) eqn:E; lia. Qed.
Lemma take_thr has room m c c' : thr_ok c -> take has room m c = Ok c' -> thr_ok c'.
Proof.
  intros T E. unfold thr_ok. rewrite (take_cfg _ _ _ _ _ E). revert E. unfold take. destruct (negb _ && _).
  - destruct (k_recv (cfg c)).
    + unfold handle_in_msg. set (c1 := mkChan _ _ _ _ _ _ _ _ _ _ _).
      assert (T1 : 0 <= thr c1 <= k_max (cfg c)) by (unfold c1; cbn [thr]; apply dec_ok; apply inc_ok; auto).
      destruct (cache c1) eqn:E.
      * intros [= <-]. auto.
      * intros H. apply for_cfg in H. destruct H as (_ & -> & _). auto.
    + intros [= <-]. unfold handle_out_msg. cbn [thr]. destruct (flag_cmp _ 1); [apply dec_ok|]; apply inc_ok; auto.
  - intros [= <-]. destruct (add_cfg m c) as (_ & -> & _). auto.
Qed.
Lemma step_thr a c c' : thr_ok c -> step a c = Ok c' -> (forall k, snd a = Config k -> k_max (cfg c) <= k_max k) -> thr_ok c'.
Proof.
  destruct a as [e a]. cbn [snd]. intros T E M. destruct a; cbn [step] in E.
  - eapply take_thr; eauto.
  - destruct (pend c) as [|i r]; [injection E as <-; auto|]. destruct i.
    + eapply take_thr; [|eauto]; auto.
    + injection E as <-. unfold redelivery_set. destruct (existsb _ _); auto. unfold thr_ok. cbn [thr cfg]. apply inc_ok; auto.
  - unfold check_msgcache in E. destruct (scan _ _ _ _ _) as [d r] eqn:Sc. destruct (put _ _ _ _) as [c1| |] eqn:Pt; cbn [obind] in E; try discriminate.
    injection E as <-. apply put_ok in Pt. subst c1.
    unfold thr_ok, job_msg_uniquety, cleanup_cache in *. cbn [cfg cache]. destruct (k_unique _); cbn [cfg thr]; lia.
  - injection E as <-. unfold response_handler_set. destruct (existsb _ _); auto. unfold thr_ok. cbn [thr cfg]. apply dec_ok; auto.
  - injection E as <-. unfold thr_ok in *. cbn. specialize (M k eq_refl). lia.
Qed.
Lemma run_thr h c c' : thr_ok c -> never_lowers k_max (cfg c) h -> run h c = Ok c' -> thr_ok c'.
Proof.
  revert c. induction h as [|a h IH]; intros c T N; cbn [run].
  - intros [= <-]. auto.
  - destruct (step a c) as [c1| |] eqn:E; cbn [obind]; try discriminate.
    cbn [never_lowers] in N. pose proof (step_cfg a c c1 E) as K.
    assert (T1 : thr_ok c1) by (eapply step_thr; eauto; intros k Hk; rewrite Hk in N; tauto).
    apply IH; auto. rewrite K. destruct (snd a); tauto.
Qed.

(** over the limit with nothing awaited: for ever *)
Definition stuck (c : chan) : Prop := k_max (cfg c) < thr c /\ awaiting c = [] /\ Forall (fun i => exists m, i = IMsg m) (pend c).
Lemma take_stuck has room m c : k_max (cfg c) < thr c -> take has room m c = Ok (add_msg_to_cache m c).
Proof. intros H. unfold take, threshold_breached. replace (k_max (cfg c) <? thr c) with true by lia. reflexivity. Qed.
Lemma step_stuck a c c' : stuck c -> quiet a -> step a c = Ok c' -> stuck c' /\ given c' = given c.
Proof.
  destruct a as [e a]. unfold quiet. cbn [snd]. intros (T & A & P) Q E. destruct a; cbn [step] in E; try contradiction.
  - rewrite take_stuck in E by auto. injection E as <-. destruct (add_cfg m c) as (K & T' & _ & G & A' & P'). unfold stuck. rewrite K, T', A', G, P'. auto.
  - destruct (pend c) as [|i r] eqn:Pe; [injection E as <-; unfold stuck; rewrite Pe; auto|]. inversion P as [|? ? P1 P2]; subst.
    destruct P1 as [m ->]. rewrite take_stuck in E by auto. injection E as <-.
    match goal with |- context[add_msg_to_cache m ?d] => destruct (add_cfg m d) as (K & T' & _ & G & A' & P'); set (c1 := add_msg_to_cache m d) in * end.
    unfold stuck. rewrite K, T', A', G, P'. cbn [cfg thr awaiting given pend]. auto.
  - unfold check_msgcache in E. destruct (scan _ _ _ _ _) as [d r] eqn:Sc. destruct (put _ _ _ _) as [c1| |] eqn:Pt; cbn [obind] in E; try discriminate.
    injection E as <-. apply put_ok in Pt. subst c1.
    assert (F : Forall (fun i => exists m, i = IMsg m) (pend c ++ map IMsg d)).
    { apply Forall_app. split; auto. clear. induction d; cbn; constructor; eauto. }
    unfold stuck, job_msg_uniquety, cleanup_cache. cbn [cfg cache]. destruct (k_unique _); cbn [cfg thr awaiting given pend]; auto.
  - injection E as <-. unfold response_handler_set. rewrite A. cbn [existsb]. unfold stuck. auto.
Qed.
Lemma run_stuck h c c' : stuck c -> Forall quiet h -> run h c = Ok c' -> given c' = given c.
Proof.
  revert c. induction h as [|a h IH]; intros c S Q; cbn [run].
  - intros [= <-]. auto.
  - destruct (step a c) as [c1| |] eqn:E; cbn [obind]; try discriminate. inversion Q; subst.
    destruct (step_stuck a c c1 S H1 E) as [S1 G1]. intros R. rewrite (IH c1 S1 H2 R). auto.
Qed.

(** once only *)
Section Once.
Variable f : Z -> Z.
Definition fits (m : msg) : Prop := m_expiry m = f (m_uuid m).
Record OInv (t : Z) (c : chan) : Prop := {
  o_cfg : k_unique (cfg c) = true /\ k_recv (cfg c) = true;
  o_nodup : NoDup (map m_uuid (given c));
  o_seen : forall m, In m (given c) -> In (m_uuid m, m_expiry m) (seen c) \/ m_expiry m < t;
  o_fits : Forall fits (given c) /\ Forall fits (cache c) /\ Forall fits (on_the_way c) }.
Lemma OInv_later t t' c : OInv t c -> t <= t' -> OInv t' c.
Proof. intros [A B C D] L. constructor; auto. intros m H. destruct (C m H); auto. right; lia. Qed.
Lemma known_in u s : known u s = true <-> exists e, In (u, e) s.
Proof.
  unfold known. rewrite existsb_exists. split.
  - intros ([a b] & I & E). cbn in E. apply Z.eqb_eq in E. subst. eauto.
  - intros (e & I). exists (u, e). split; auto. cbn. apply Z.eqb_refl.
Qed.
Lemma add_fits m c : fits m -> Forall fits (cache c) -> Forall fits (cache (add_msg_to_cache m c)).
Proof.
  intros M C. unfold add_msg_to_cache. destruct (k_size (cfg c) <=? _); cbn [cache].
  2:{ apply Forall_app; auto. }
  set (pr := if is_purge (cfg c) then _ else _).
  assert (H : Forall fits (fst pr)).
  { unfold pr. destruct (is_purge (cfg c)); auto. destruct (is_fifo (cfg c)).
    - destruct (cache c); cbn; auto. inversion C; auto.
    - destruct (is_lifo (cfg c)); auto. destruct (rev (cache c)) eqn:E; cbn; auto.
      apply rev_front in E. rewrite E in C. apply Forall_app in C. tauto. }
  clearbody pr. destruct pr as [ch dr]. destruct (is_reject (cfg c)); cbn; auto. apply Forall_app; auto.
Qed.
Lemma for_inv t has g room c c' : OInv t c -> check_msgcache_for has g room c = Ok c' -> OInv t c'.
Proof.
  intros O E. pose proof (for_cfg _ _ _ _ _ E) as (K & _ & S & G & _). destruct O as [A B C (D1 & D2 & D3)].
  constructor.
  - rewrite K. auto.
  - rewrite G. auto.
  - rewrite G, S. auto.
  - rewrite G. split; auto. unfold check_msgcache_for in E. destruct (has g); [|injection E as <-; auto].
    destruct (scan _ _ _ _ _) as [d r] eqn:Sc. apply scan_perm in Sc. apply put_ok in E. subst c'. unfold on_the_way in *. cbn [cache pend] in *.
    apply (Permutation_Forall Sc) in D2. apply Forall_app in D2. rewrite flat_map_app, way_msgs. split; [tauto|]. apply Forall_app. tauto.
Qed.
Lemma take_inv t has room m c c' : OInv t c -> fits m -> t <= m_expiry m -> take has room m c = Ok c' -> OInv t c'.
Proof.
  intros O Fm L. unfold take. destruct (negb _ && _).
  2:{ intros [= <-]. destruct (add_cfg m c) as (K & _ & S & G & _ & P). destruct O as [A B C (D1 & D2 & D3)].
      constructor; rewrite ?K, ?G, ?S; auto. split; auto. split; [apply add_fits; auto|]. unfold on_the_way. rewrite P. auto. }
  destruct O as [(A1 & A2) B C (D1 & D2 & D3)]. rewrite A2. unfold handle_in_msg. rewrite A1. cbn [andb].
  set (c1 := mkChan _ _ _ _ _ _ _ _ _ _ _).
  assert (O1 : OInv t c1).
  { unfold c1. destruct (known (m_uuid m) (seen c)) eqn:Kn; cbn [negb andb].
    - constructor; cbn [cfg given seen cache pend]; auto.
    - assert (Nin : ~ In (m_uuid m) (map m_uuid (given c))).
      { intros H. apply in_map_iff in H. destruct H as (m' & E' & I'). pose proof (proj1 (Forall_forall fits (given c)) D1 m' I') as F'.
        unfold fits in *. destruct (C m' I') as [X|X]; [|rewrite E' in F'; lia].
        rewrite E' in X. assert (Y : known (m_uuid m) (seen c) = true) by (apply known_in; eauto). congruence. }
      constructor; cbn [cfg given seen cache pend]; auto.
      + destruct (m_ok m); auto. rewrite map_app. cbn [map]. apply (Permutation_NoDup (l := m_uuid m :: map m_uuid (given c))).
        * apply Permutation_cons_append.
        * constructor; auto.
      + intros m' H. assert (H' : In m' (given c) \/ m' = m).
        { destruct (m_ok m); auto. apply in_app_or in H. destruct H as [H|[H|[]]]; auto. }
        destruct H' as [H' | ->].
        * destruct (C m' H'); auto. left. apply in_or_app; auto.
        * left. apply in_or_app. right. left. auto.
      + split; auto. destruct (m_ok m); auto. apply Forall_app. auto. }
  destruct (cache c1) eqn:E.
  - intros [= <-]. auto.
  - apply for_inv; auto.
Qed.
Lemma once_run h t c c' : OInv t c -> in_order t h -> in_time h c -> configs_in (fun k => k_unique k = true /\ k_recv k = true) h ->
  Forall fits (arrived h) -> run h c = Ok c' -> exists t', OInv t' c'.
Proof.
  revert t c. induction h as [|[e a] h IH]; intros t c O Ord Tm Cf Ft; cbn [run].
  - intros [= <-]. eauto.
  - destruct (step (e, a) c) as [c1| |] eqn:E; cbn [obind]; try discriminate. intros R.
    cbn [in_order fst] in Ord. destruct Ord as [O1 O2]. cbn [in_time snd fst] in Tm. destruct Tm as [T1 T2]. rewrite E in T2.
    inversion Cf as [|? ? C1 C2]; subst. cbn [snd] in C1.
    unfold arrived in Ft. cbn [flat_map snd] in Ft. apply Forall_app in Ft. destruct Ft as [F1 F2].
    assert (O' : OInv (e_now e) c) by (eapply OInv_later; eauto).
    assert (OK : OInv (e_now e) c1).
    { destruct a; cbn [step] in E.
      - inversion F1; subst. eapply take_inv; eauto.
      - destruct (pend c) as [|i r] eqn:P; [injection E as <-; auto|].
        set (c2 := mkChan _ _ _ _ _ _ _ _ _ _ _) in *.
        assert (O2' : OInv (e_now e) c2 /\ (forall m, i = IMsg m -> fits m)).
        { destruct O' as [A B C (D1 & D2 & D3)]. unfold on_the_way in D3. rewrite P in D3. cbn [flat_map] in D3. apply Forall_app in D3.
          destruct D3 as [D3 D4]. split.
          - unfold c2. constructor; cbn [cfg given seen cache pend]; auto.
          - intros m ->. inversion D3; auto. }
        destruct O2' as [O2' Fi]. destruct i.
        + eapply take_inv; eauto.
        + injection E as <-. unfold redelivery_set. destruct (existsb _ _); auto.
          destruct O2' as [A B C D]. constructor; cbn [cfg given seen cache pend]; auto.
      - unfold check_msgcache in E. destruct (scan _ _ _ _ _) as [d r] eqn:Sc. destruct (put _ _ _ _) as [c2| |] eqn:Pt; cbn [obind] in E; try discriminate.
        injection E as <-. apply scan_perm in Sc. apply put_ok in Pt. subst c2. destruct O' as [(A1 & A2) B C (D1 & D2 & D3)].
        unfold job_msg_uniquety, cleanup_cache. cbn [cfg]. rewrite A1. constructor; cbn [cfg given seen cache pend]; auto.
        + intros m H. destruct (C m H) as [X|X]; auto. destruct (m_expiry m <? e_now e) eqn:Y; [right; lia|].
          left. apply filter_In. split; auto. cbn. rewrite Y. auto.
        + apply (Permutation_Forall Sc) in D2. apply Forall_app in D2. unfold on_the_way in *. cbn [pend]. rewrite flat_map_app, way_msgs.
          split; auto. split; [|apply Forall_app; tauto]. rewrite Forall_forall. intros x Hx. apply filter_In in Hx.
          destruct D2 as [_ D2]. rewrite Forall_forall in D2. apply D2. tauto.
      - injection E as <-. unfold response_handler_set. destruct (existsb _ _); auto. destruct O' as [A B C D].
        constructor; cbn [cfg given seen cache pend]; auto.
      - injection E as <-. destruct O' as [A B C D]. constructor; cbn [cfg given seen cache pend]; auto. }
    eapply IH; eauto.
Qed.
End Once.
