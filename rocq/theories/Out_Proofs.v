From Verif Require Import Base Dhkey_Model Dhkey_Proofs Bloom_Model Pheromone_Model Pheromone_Spec Data_Model Out_Model Out_Spec.

(** * Asking for a trail with some demand *)
Lemma snuffle_demand tb s fs fr ks cur p : snuffle tb s 0 fs fr = Ok (ks, cur) -> 0 <= cur -> snuffle tb s p fs fr = Ok (if p <=? cur then ks else [], cur).
Proof.
  unfold snuffle. destruct (held tb); [discriminate|]. destruct (buckets tb _) as [b|]; [|intros [= <- <-]; destruct (p <=? 0); reflexivity].
  destruct (nbf_check (top b) s) as [[]| |]; cbn [obind]; try discriminate; [|intros [= <- <-]; destruct (p <=? 0); reflexivity].
  destruct (nbf_heuristic (top b) s) as [c| |]; cbn [obind]; try discriminate. destruct (Z.leb_spec 0 c).
  - destruct (collect _ _ _ _) as [l| |]; cbn [obind]; try discriminate. intros [= <- <-] _. destruct (p <=? c); reflexivity.
  - intros [= <- <-] ?. lia.
Qed.
Lemma snuffle_nonneg tb s fs fr ks cur : snuffle tb s 0 fs fr = Ok (ks, cur) -> ks <> [] -> 0 <= cur.
Proof.
  unfold snuffle. destruct (held tb); [discriminate|]. destruct (buckets tb _) as [b|]; [|intros [= <- <-]; congruence].
  destruct (nbf_check (top b) s) as [[]| |]; cbn [obind]; try discriminate; [|intros [= <- <-]; congruence].
  destruct (nbf_heuristic (top b) s) as [c| |]; cbn [obind]; try discriminate. destruct (Z.leb_spec 0 c); [|intros [= <- <-]; congruence].
  destruct (collect _ _ _ _) as [l| |]; cbn [obind]; try discriminate. intros [= <- <-] _. auto.
Qed.
(** the strength does not depend on the direction asked for *)
Lemma snuffle_strength tb s fs fr fs' fr' ks cur ks' cur' : snuffle tb s 0 fs fr = Ok (ks, cur) -> snuffle tb s 0 fs' fr' = Ok (ks', cur') -> cur = cur'.
Proof.
  unfold snuffle. destruct (held tb); [discriminate|]. destruct (buckets tb _) as [b|]; [|congruence].
  destruct (nbf_check (top b) s) as [[]| |]; cbn [obind]; try discriminate; [|congruence].
  destruct (nbf_heuristic (top b) s) as [c| |]; cbn [obind]; try discriminate. destruct (0 <=? c); [|congruence].
  destruct (collect _ _ fs fr) as [l| |]; cbn [obind]; try discriminate. destruct (collect _ _ fs' fr') as [l'| |]; cbn [obind]; try discriminate. congruence.
Qed.
Lemma demand_lower cur : demand (10 * cur - 256) <= cur.
Proof. unfold demand. lia. Qed.

Lemma default_ok n tb s ks cur : trail tb s true = Ok (ks, cur) -> 0 <= cur -> forall t, (n = 0%nat -> demand t <= cur) -> default_rounds (S n) tb s t = Ok ks.
Proof.
  unfold trail, snuffle_receiver. intros T C. induction n as [|n IH]; intros t H.
  - cbn [default_rounds]. unfold snuffle_receiver. rewrite (snuffle_demand _ _ _ _ _ _ _ T C). cbn [obind]. specialize (H eq_refl). replace (demand t <=? cur) with true by lia. destruct ks; reflexivity.
  - change (default_rounds (S (S n)) tb s t) with (obind (snuffle_receiver tb s (demand t)) (fun '(ks, cur) => match ks with [] => default_rounds (S n) tb s (10 * cur - 256) | _ => Ok ks end)).
    unfold snuffle_receiver. rewrite (snuffle_demand _ _ _ _ _ _ _ T C). cbn [obind]. destruct (demand t <=? cur); [destruct ks; [|reflexivity]|]; (rewrite IH; [reflexivity|intros _; apply demand_lower]).
Qed.

Lemma remove_first_spec k l x : wf_key k -> Forall wf_key l -> NoDup l -> In x (remove_first k l) <-> In x l /\ x <> k.
Proof.
  intros W F N. induction l as [|y l IH]; cbn [remove_first]; [cbn; tauto|]. inversion F as [|? ? Wy F']; subst. inversion N as [|? ? Ny N']; subst.
  destruct (np_dhkey_equal y k) eqn:E.
  - apply equal_spec in E; auto. subst y. split; [intros H; split; [right; auto|intros ->; auto]|]. intros [[->|H] H']; [congruence|auto].
  - assert (y <> k) by (intros Q; apply (equal_spec y k Wy W) in Q; congruence). cbn [In]. rewrite IH by auto. split; [intros [->|[]]; split; auto|tauto].
Qed.
Lemma remove_first_sub k l x : In x (remove_first k l) -> In x l.
Proof. induction l as [|y l IH]; cbn [remove_first]; [auto|]. destruct (np_dhkey_equal y k); cbn; tauto. Qed.
Lemma remove_first_len k l : (length (remove_first k l) <= length l)%nat.
Proof. induction l as [|y l IH]; cbn [remove_first]; [auto|]. destruct (np_dhkey_equal y k); cbn [length]; lia. Qed.
Lemma remove_first_nodup k l : NoDup l -> NoDup (remove_first k l).
Proof.
  induction l as [|y l IH]; cbn [remove_first]; intros N; [constructor|]. inversion N; subst. destruct (np_dhkey_equal y k); [auto|]. constructor; [|auto]. intros H. apply remove_first_sub in H. auto.
Qed.
Lemma remove_first_wf k l : Forall wf_key l -> Forall wf_key (remove_first k l).
Proof. intros F. rewrite Forall_forall in *. intros x H. apply remove_first_sub in H. auto. Qed.

Lemma forward_ok n tb s prev ks cur : trail tb s true = Ok (ks, cur) -> 0 <= cur -> forall t, (n = 0%nat -> demand t <= cur) -> forward_rounds (S n) tb s prev t = Ok (remove_first prev ks).
Proof.
  unfold trail, snuffle_receiver. intros T C. induction n as [|n IH]; intros t H.
  - cbn [forward_rounds]. unfold snuffle_receiver. rewrite (snuffle_demand _ _ _ _ _ _ _ T C). cbn [obind]. specialize (H eq_refl). replace (demand t <=? cur) with true by lia. destruct (remove_first prev ks); reflexivity.
  - change (forward_rounds (S (S n)) tb s prev t) with (obind (snuffle_receiver tb s (demand t)) (fun '(ks, cur) => match remove_first prev ks with [] => forward_rounds (S n) tb s prev (10 * cur - 256) | l => Ok l end)).
    unfold snuffle_receiver. rewrite (snuffle_demand _ _ _ _ _ _ _ T C). cbn [obind]. destruct (demand t <=? cur); [|cbn [remove_first]; apply IH; intros _; apply demand_lower].
    destruct (remove_first prev ks) eqn:E; [|reflexivity]. apply IH. intros _. apply demand_lower.
Qed.

Lemma trail_ask tb s (r : bool) ks cur p : trail tb s r = Ok (ks, cur) -> 0 <= cur ->
  (if r then snuffle_receiver tb s p else snuffle_sender tb s p) = Ok (if p <=? cur then ks else [], cur).
Proof. intros T C. destruct r; unfold trail, snuffle_receiver, snuffle_sender in *; apply snuffle_demand; auto. Qed.
Lemma available_step n tb s (r : bool) t : available_rounds (S n) tb s (if r then Receivers else Senders) t =
  obind (if r then snuffle_receiver tb s (demand t) else snuffle_sender tb s (demand t)) (fun '(ks, _) => match ks with [] => available_rounds n tb s (if r then Receivers else Senders) (t - 256) | _ => Ok ks end).
Proof. destruct r; reflexivity. Qed.
Lemma available_ok n tb s (r : bool) ks cur : trail tb s r = Ok (ks, cur) -> 0 <= cur -> forall t, demand (t - 256 * Z.of_nat n) <= cur ->
  available_rounds (S n) tb s (if r then Receivers else Senders) t = Ok ks.
Proof.
  intros T C. induction n as [|n IH]; intros t H; rewrite available_step, (trail_ask _ _ _ _ _ _ T C); cbn [obind].
  - replace (demand t <=? cur) with true; [destruct ks; reflexivity|]. replace (t - 256 * Z.of_nat 0) with t in H by lia. lia.
  - assert (G : available_rounds (S n) tb s (if r then Receivers else Senders) (t - 256) = Ok ks). { apply IH. replace (t - 256 - 256 * Z.of_nat n) with (t - 256 * Z.of_nat (S n)) by lia. exact H. }
    destruct (demand t <=? cur); [|exact G]. destruct ks; [exact G|reflexivity].
Qed.
Lemma available_weak n tb s (r : bool) ks cur : trail tb s r = Ok (ks, cur) -> 0 <= cur -> forall t, cur < demand (t - 256 * Z.of_nat n) ->
  available_rounds (S n) tb s (if r then Receivers else Senders) t = Ok [].
Proof.
  intros T C. induction n as [|n IH]; intros t H; rewrite available_step, (trail_ask _ _ _ _ _ _ T C); cbn [obind].
  - replace (demand t <=? cur) with false; [reflexivity|]. replace (t - 256 * Z.of_nat 0) with t in H by lia. lia.
  - replace (demand t <=? cur) with false; [|unfold demand in *; lia]. apply IH. replace (t - 256 - 256 * Z.of_nat n) with (t - 256 * Z.of_nat (S n)) by lia. exact H.
Qed.

Lemma ack_step f tb s t : ack_rounds (S f) tb s t = if t <=? 640 then Done [] else
  rbind (lift (snuffle_receiver tb s (demand t))) (fun '(ks, cur) => match ks with [] => ack_rounds f tb s (10 * cur - 256) | _ => Done ks end).
Proof. reflexivity. Qed.
Lemma ack_snuffle f tb s t ks cur : trail tb s true = Ok (ks, cur) -> 0 <= cur -> 640 < t ->
  ack_rounds (S f) tb s t = match (if demand t <=? cur then ks else []) with [] => ack_rounds f tb s (10 * cur - 256) | l => Done l end.
Proof.
  intros T C H. rewrite ack_step. replace (t <=? 640) with false by lia. pose proof (trail_ask _ _ _ _ _ (demand t) T C) as E. cbn [trail] in E. rewrite E. cbn [lift rbind]. destruct (if demand t <=? cur then ks else []); reflexivity.
Qed.
Lemma ack_ok f tb s ks cur : trail tb s true = Ok (ks, cur) -> 90 <= cur -> ks <> [] -> ack_rounds (S (S f)) tb s 2560 = Done ks.
Proof.
  intros T C N. rewrite (ack_snuffle _ _ _ _ _ _ T) by lia. destruct (demand 2560 <=? cur); [destruct ks; [congruence|reflexivity]|].
  rewrite (ack_snuffle _ _ _ _ _ _ T) by lia. pose proof (demand_lower cur). replace (demand (10 * cur - 256) <=? cur) with true by lia. destruct ks; [congruence|reflexivity].
Qed.
Lemma ack_weak f tb s ks cur : trail tb s true = Ok (ks, cur) -> 0 <= cur <= 89 -> ack_rounds (S f) tb s 2560 = Done [].
Proof.
  intros T C. rewrite (ack_snuffle _ _ _ _ _ _ T) by lia. change (demand 2560) with 256. replace (256 <=? cur) with false by lia.
  destruct f; cbn [ack_rounds]; replace (10 * cur - 256 <=? 640) with true by lia; reflexivity.
Qed.
Lemma ack_hang tb s cur : trail tb s true = Ok ([], cur) -> 90 <= cur -> forall f t, 640 < t -> ack_rounds f tb s t = Hangs.
Proof.
  intros T C. induction f as [|f IH]; intros t H; [cbn [ack_rounds]; replace (t <=? 640) with false by lia; reflexivity|].
  rewrite (ack_snuffle _ _ _ _ _ _ T) by lia. destruct (demand t <=? cur); apply IH; lia.
Qed.

(** * Handing over *)
Lemma filter_len {A} (f : A -> bool) l : (length (filter f l) <= length l)%nat.
Proof. induction l as [|x l IH]; cbn [filter length]; [lia|]. destruct (f x); cbn [length]; lia. Qed.
Lemma firstn_incl {A} n (l : list A) x : In x (firstn n l) -> In x l.
Proof. revert l. induction n as [|n IH]; intros [|y l]; cbn; try tauto. intros [->|H]; auto. Qed.

Lemma send_ok w m to l : proper w l -> enough_room w l -> m_audience m = to ->
  exists r cs, send_chunks w m to l = (r, cs) /\ (r = true <-> cs <> []) /\ handed_over m (usable w l) cs.
Proof.
  intros (Wm & F & N) R <-. unfold send_chunks. set (hops := filter _ l). eexists. eexists. split; [reflexivity|].
  assert (L : (length hops <= w_room w)%nat) by (pose proof (filter_len (fun h => negb (np_dhkey_equal h (w_me w)) && exists_key w h) l); unfold enough_room in R; subst hops; lia).
  rewrite firstn_all2 by (rewrite map_length; exact L). split; [destruct hops; cbn; split; congruence|].
  split; [|split].
  - apply Forall_forall. intros c H. apply in_map_iff in H. destruct H as (h & <- & _). auto.
  - rewrite map_map, map_id. apply NoDup_filter. exact N.
  - intros k. rewrite map_map, map_id. subst hops. rewrite filter_In. unfold usable. rewrite andb_true_iff, negb_true_iff. split.
    + intros (H & H1 & H2). split; [auto|]. rewrite Forall_forall in F. split; [intros ->; rewrite (proj2 (equal_spec _ _ Wm Wm) eq_refl) in H1; discriminate|]. unfold exists_key in H2. destruct (w_cache w k); [discriminate|discriminate].
    + intros (H & H1 & H2). rewrite Forall_forall in F. split; [auto|]. split; [apply not_true_is_false; intros Q; apply H1, (equal_spec k (w_me w) (F k H) Wm), Q|]. unfold exists_key. destruct (w_cache w k); [reflexivity|congruence].
Qed.
Lemma send_sub w m to l c : In c (snd (send_chunks w m to l)) -> In (c_hop c) l /\ c_message c = m /\ c_target c = to /\ np_dhkey_equal (c_hop c) (w_me w) = false.
Proof.
  unfold send_chunks. cbn [snd]. intros H. apply firstn_incl in H. apply in_map_iff in H. destruct H as (h & <- & H). apply filter_In in H. destruct H as [H Q]. cbn. apply andb_true_iff in Q. destruct Q as [Q _]. apply negb_true_iff in Q. auto.
Qed.
Lemma send_false w m to l r cs : send_chunks w m to l = (r, cs) -> r = false -> cs = [].
Proof.
  unfold send_chunks. destruct (filter _ l); [intros [= <- <-] _; cbn; destruct (w_room w); reflexivity|intros [= <- _]; discriminate].
Qed.
Lemma proper_remove w prev ks : proper w ks -> proper w (remove_first prev ks).
Proof. intros (A & B & C). split; [auto|]. split; [apply remove_first_wf|apply remove_first_nodup]; auto. Qed.
Lemma room_remove w prev ks : enough_room w ks -> enough_room w (remove_first prev ks).
Proof. unfold enough_room. pose proof (remove_first_len prev ks). lia. Qed.
Lemma handed_iff m (P Q : key -> Prop) cs : (forall k, P k <-> Q k) -> handed_over m P cs -> handed_over m Q cs.
Proof. intros H (A & B & C). split; [auto|]. split; [auto|]. intros k. rewrite C. apply H. Qed.
Lemma remove_twice k l : wf_key k -> Forall wf_key l -> NoDup l -> remove_first k (remove_first k l) = remove_first k l.
Proof.
  intros W F N. assert (G : forall l, Forall wf_key l -> ~ In k l -> remove_first k l = l).
  { clear l F N. induction l as [|y l IH]; intros F H; [reflexivity|]. inversion F; subst. cbn [remove_first]. destruct (np_dhkey_equal y k) eqn:E; [apply equal_spec in E; auto; subst; exfalso; apply H; left; auto|]. rewrite IH; auto. intros Q. apply H. right. auto. }
  apply G; [apply remove_first_wf; auto|]. intros H. apply remove_first_spec in H; auto. destruct H; congruence.
Qed.
