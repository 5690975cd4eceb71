(** C116: announcements that come in *)
From Verif Require Import Base Dhkey_Model Dhkey_Proofs Pheromone_Model Pheromone_Spec Pheromone_Props Data_Model Out_Model Out_Spec Out_Proofs Out_Props Discover_Model Discover_Spec Discover_Proofs.

Lemma flags ar av r s m : two_subjects ar av -> announces ar av r s m -> np_dhkey_equal ar (m_subject m) = r /\ np_dhkey_equal av (m_subject m) = negb r.
Proof.
  intros (W1 & W2 & N) [-> _]. pose proof (proj2 (equal_spec ar ar W1 W1) eq_refl) as E1. pose proof (proj2 (equal_spec av av W2 W2) eq_refl) as E2.
  destruct r; cbn [negb]; split; auto; apply not_true_is_false; intros Q; apply equal_spec in Q; auto; congruence.
Qed.

(** After an announcement of a receiver (a sender) of a subject came in from a neighbour, the node knows that receivers (senders) of the subject
    are reachable over this neighbour, with nearly half of the full strength, whatever was smelled before, as long as the bucket of the
    subject has room. *)
Theorem C116_trail_back_partial : forall ar av chan w prev m seen now bucket h s r cs mine tb', two_subjects ar av -> announces ar av r s m ->
  good (w_me w) (h ++ [Use s prev r now; Exhale bucket]) -> Pheromone_Spec.run (new_table (w_me w)) h = Ok (w_table w) -> held (w_table w) = false ->
  (forall b, buckets (w_table w) (bucket_of s) = Some b -> (length (ents b) <= 30)%nat) -> along (calm s) (w_table w) [Use s prev r now; Exhale bucket] ->
  w_connected w = true -> discover ar av chan w prev m seen now bucket = Done (cs, mine, tb') ->
  exists ks pr, trail tb' s r = Ok (ks, pr) /\ In prev ks /\ 120 <= pr.
Proof.
  intros ar av chan w prev m seen now bucket h s r cs mine tb' Two An G E H Rm Al Cn D. destruct (flags _ _ _ _ _ Two An) as [Fs Fr]. destruct An as [_ Ea].
  unfold discover in D. rewrite Fs, Fr, Ea in D.
  assert (G1 : good (w_me w) (h ++ [Use s prev r now])). { apply (good_prefix _ _ [Exhale bucket]). rewrite <- app_assoc. exact G. }
  destruct (C29_found (w_me w) h (Use s prev r now) s prev r 0 (w_table w) G1) as (t1 & E1 & _); auto.
  { right. split; [reflexivity | exists now; reflexivity]. } { cbn. lia. } { intros b Hb. split; [eauto|]. apply (proj1 Al b Hb). }
  cbn [step] in E1. rewrite E1 in D. cbn [lift rbind] in D. unfold out_available in D. cbn [w_connected w_table m_audience m_forwarded] in D. rewrite Cn in D. cbn [negb] in D.
  destruct (available_rounds _ _ _ _ _) as [l| |]; cbn [lift rbind] in D; try discriminate. destruct (match remove_first prev l with [] => _ | _ => _ end) as [b cs'].
  destruct (exhale t1 bucket) as [t2| |] eqn:Ex; cbn [lift rbind] in D; try discriminate. injection D as _ _ <-.
  apply (trail_back (w_me w) h s prev r now bucket (w_table w) t2); auto; [|apply (exhale_held _ _ _ Ex)].
  cbn [Pheromone_Spec.run step]. rewrite E1. cbn [obind]. rewrite Ex. reflexivity.
Qed.
(** It goes on, one hop further, to all neighbours over which the other side of the subject is known to be reachable, except back. *)
Theorem C116_goes_on_partial : forall ar av chan w prev m seen now bucket s r tb ks cur tb', two_subjects ar av -> announces ar av r s m ->
  inhale_target (w_table w) s prev r (negb r) now = Ok (tb, true) -> w_connected w = true -> trail tb s (negb r) = Ok (ks, cur) -> 52 <= cur ->
  proper w ks -> enough_room w ks -> wf_key prev -> 0 <= m_hops m < 65535 -> exhale tb bucket = Ok tb' ->
  exists cs mine, discover ar av chan w prev m seen now bucket = Done (cs, mine, tb') /\ handed_over (passed_on m) (fun k => usable w ks k /\ k <> prev) cs.
Proof.
  intros ar av chan w prev m seen now bucket s r tb ks cur tb' Two An E Cn T C P R Wp Hh Ex. destruct (flags _ _ _ _ _ Two An) as [Fs Fr]. destruct An as [_ Ea].
  set (w1 := mkW (w_me w) (w_cache w) (w_connected w) tb (w_room w)). set (m1 := mkM (m_subject m) (m_audience m) true (m_hops m) (m_rest m)).
  destruct (C110_trail_partial w1 prev (negb r) m1 bucket tb' ks cur) as (b & cs & Eo & _ & Ho); auto. { cbn [m1 m_audience]. rewrite Ea. exact T. }
  unfold discover. rewrite Fs, Fr, Ea, E. cbn [lift rbind]. fold w1. change (mkM (m_subject m) s true (m_hops m) (m_rest m)) with (mkM (m_subject m) s true (m_hops m) (m_rest m)).
  replace (mkM (m_subject m) s true (m_hops m) (m_rest m)) with m1 by (unfold m1; rewrite Ea; reflexivity).
  replace (if negb r then Receivers else if r then Senders else Neither) with (if negb r then Receivers else Senders) by (destruct r; reflexivity).
  rewrite Eo. cbn [rbind]. eexists _, _. split; [reflexivity|]. exact Ho.
Qed.
(** The own channel for the other side of the subject gets it, when there is one, and only the first time. *)
Theorem C116_given : forall ar av chan w prev m seen now bucket s r cs mine tb', two_subjects ar av -> announces ar av r s m ->
  discover ar av chan w prev m seen now bucket = Done (cs, mine, tb') -> (mine = true <-> chan (negb r) s = true /\ seen = false).
Proof.
  intros ar av chan w prev m seen now bucket s r cs mine tb' Two An D. destruct (flags _ _ _ _ _ Two An) as [Fs Fr]. destruct An as [_ Ea]. unfold discover in D. rewrite Fs, Fr, Ea in D.
  destruct (inhale_target _ _ _ _ _ _) as [[tb go]| |]; cbn [lift rbind] in D; try discriminate. match type of D with rbind ?X _ = _ => destruct X as [[cs0 tb0]| | |] end; cbn [rbind] in D; try discriminate.
  injection D as _ <- _. destruct r, seen; cbn [negb]; rewrite ?andb_true_r, ?andb_false_r; intuition congruence.
Qed.
(** The claim fails for an announcement that comes a second time: it goes on to the same neighbours as if it were new. *)
Theorem C116_twice_refuted : forall ar av chan w prev m now bucket cs mine tb', discover ar av chan w prev m false now bucket = Done (cs, mine, tb') ->
  discover ar av chan w prev m true now bucket = Done (cs, false, tb').
Proof.
  intros ar av chan w prev m now bucket cs mine tb' D. unfold discover in *. destruct (inhale_target _ _ _ _ _ _) as [[tb go]| |]; cbn [lift rbind] in *; try discriminate.
  match type of D with rbind ?X _ = _ => destruct X as [[cs0 tb0]| | |] end; cbn [rbind] in *; try discriminate. injection D as <- _ <-. rewrite andb_false_r. reflexivity.
Qed.
(** The claim fails when the bucket is full: the announcement does not go on. *)
Theorem C116_full_refuted : forall ar av chan w prev m seen now bucket s r tb, two_subjects ar av -> announces ar av r s m ->
  inhale_target (w_table w) s prev r (negb r) now = Ok (tb, false) -> exists mine, discover ar av chan w prev m seen now bucket = Done ([], mine, tb).
Proof.
  intros ar av chan w prev m seen now bucket s r tb Two An E. destruct (flags _ _ _ _ _ Two An) as [Fs Fr]. destruct An as [_ Ea].
  unfold discover. rewrite Fs, Fr, Ea, E. cbn [lift rbind]. eexists. reflexivity.
Qed.

(** * The hypotheses are met *)
Definition recv_token : key := [7; 7; 7; 7; 7; 7; 7; 7].
Definition send_token : key := [8; 8; 8; 8; 8; 8; 8; 8].
Example C116_two : two_subjects recv_token send_token.
Proof. split; [apply wf_b_ok; reflexivity|]. split; [apply wf_b_ok; reflexivity | discriminate]. Qed.
(** a receiver of topic 2 is announced by neighbour 3; a sender of it is known over neighbour 2 *)
Example C116_case :
  match discover recv_token send_token (fun i _ => negb i) (node two_ways) (near 3) (hello recv_token (topic 2)) false 9 5 with
  | Done (cs, mine, tb) => same_keys (map c_hop cs) [near 2] && mine &&
      match trail tb (topic 2) true with Ok (ks, pr) => same_keys ks [near 3] && (120 <=? pr) | _ => false end
  | _ => false
  end = true.
Proof. vm_compute. reflexivity. Qed.
Example C116_good_case : good here (two_ways ++ [Use (topic 2) (near 3) true 9; Exhale 5]) /\ along (calm (topic 2)) (after two_ways) [Use (topic 2) (near 3) true 9; Exhale 5].
Proof. split; [apply good_b_ok; vm_compute; reflexivity | apply along_b_ok; vm_compute; reflexivity]. Qed.

Print Assumptions C116_trail_back_partial.
Print Assumptions C116_goes_on_partial.
Print Assumptions C116_given.
Print Assumptions C116_twice_refuted.
Print Assumptions C116_full_refuted.
