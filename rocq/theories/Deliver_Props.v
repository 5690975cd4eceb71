(** C83 (what was sent is what is delivered), C84 (the answer to a send), C85 (the callbacks of a subject). *)
From Verif Require Import Base Heap_Model Jobqueue_Model Jobqueue_Proofs Jobqueue_Props Tree_Model Tree_Spec Cbor_Model Treeval_Model Treeval_Spec Wire_Model Data_Model Data_Spec Data_Proofs In_Model Deliver_Model Deliver_Spec Deliver_Proofs.

(** C83: whatever the application sends (up to the 4 GB a length of 32 bits can say), with whatever attributes were set
    before, the body can be written and read back, and from what is read back the receiver is given the same bytes, the
    identity of the sender, and exactly the attributes that had room.
    Missing: attributes under the key of the sender, longer messages, attributes that do not fit (refuted below); packets,
    encryption and routing on the way (C33, C54, C68). *)
Theorem C83_delivered_partial : forall me w0 w3 w4 cs junk data,
  length me = 32%nat -> Z.of_nat (length data) <= 4294967295 -> Z.of_nat (length junk) = 10240 ->
  caches_of w0 w3 w4 cs -> Forall (fun e => fst e <> from_key) (w0 ++ w3 ++ w4) ->
  exists h tree bs, message_body me cs junk data = Done h /\ vrun h = Ok tree /\ np_serializer_write_map tree = Some bs /\
    forall rest uuid subject, exists body a, np_serializer_read_map (bs ++ rest) = Some (VTree Plain body, rest) /\
      converted uuid subject body = Done (Some (mkMsg uuid subject me data a)) /\
      forall k, np_get_data a k = answer (lookup k (sent_store me w0 w3 w4)).
Proof.
  intros me w0 w3 w4 cs junk data Lm Ld Lj Hc Hf. destruct (sent_and_read me w0 w3 w4 cs junk data Lm Hc Lj) as (h & tree & bs & E1 & E2 & E3 & E4 & a & G & E5).
  exists h, tree, bs. split; [exact E1|]. split; [exact E2|]. split; [exact E3|]. intros rest uuid subject. exists (entries tree), a. split; [apply E4|]. split; [|exact G].
  rewrite E5. assert (L : lookup from_key (sent_store me w0 w3 w4) = Some (DBin me)).
  { assert (N : forall ws, incl ws (w0 ++ w3 ++ w4) -> ~ In from_key (map fst (content ws))).
    { intros ws Hi. apply content_keys. intros H. apply in_map_iff in H as (e & E & He). rewrite Forall_forall in Hf. exact (Hf e (Hi e He) E). }
    unfold sent_store. rewrite !merge_other; [reflexivity| | |]; apply N; intros e He; apply in_or_app; [left; exact He|right|right]; apply in_or_app; auto. }
  rewrite L. cbn [sender_of]. rewrite Lm. cbn [Nat.eqb rbind]. unfold u32. rewrite Z.mod_small by lia. rewrite Nat2Z.id, firstn_all. reflexivity.
Qed.
(** C83: if everything fits into 10240 bytes, every attribute arrives; where a key was set for several kinds, the one shared
    with intents wins over the one shared with the identity, which wins over the one for messages. *)
Theorem C83_all_attributes : forall me w0 w3 w4 k,
  21 + sizes [(from_key, DBin me)] + sizes (content w0) + sizes (content w3) + sizes (content w4) <= 10240 ->
  lookup k (sent_store me w0 w3 w4) = first_of k [content w4; content w3; content w0; [(from_key, DBin me)]].
Proof.
  intros me w0 w3 w4 k H. pose proof (sizes_pos (content w0)). pose proof (sizes_pos (content w3)). pose proof (sizes_pos (content w4)).
  destruct (merge_fits 10240 k (content w0) [(from_key, DBin me)] (content_nodup w0)) as [B0 E0]; [rewrite needed_sizes; lia|]. rewrite (needed_sizes [(from_key, DBin me)]) in B0.
  set (s0 := snd (spec_merge 10240 (content w0) [(from_key, DBin me)])) in *.
  destruct (merge_fits 10240 k (content w3) s0 (content_nodup w3)) as [B3 E3]; [lia|]. set (s3 := snd (spec_merge 10240 (content w3) s0)) in *.
  destruct (merge_fits 10240 k (content w4) s3 (content_nodup w4)) as [_ E4]; [lia|].
  unfold sent_store. fold s0. fold s3. rewrite E4, E3, E0. unfold first_of. cbn [fold_right]. destruct (lookup k [(from_key, DBin me)]); reflexivity.
Qed.
(** the theorems apply: any attributes within the limits, here three of different kinds *)
Definition some_key : list Z := [107; 101; 121].
Example C83_ex : exists cs, caches_of [(some_key, DBin [1; 2]); ([97], DBin [3])] [(some_key, DBin [4])] [] cs /\ length (repeat 7 32) = 32%nat /\
  first_of some_key [content []; content [(some_key, DBin [4])]; content [(some_key, DBin [1; 2]); ([97], DBin [3])]; [(from_key, DBin (repeat 7 32))]] = Some (DBin [4]) /\
  21 + sizes [(from_key, DBin (repeat 7 32))] + sizes (content [(some_key, DBin [1; 2]); ([97], DBin [3])]) + sizes (content [(some_key, DBin [4])]) + sizes (content []) <= 10240.
Proof.
  destruct (caches_exist [(some_key, DBin [1; 2]); ([97], DBin [3])] [(some_key, DBin [4])] []) as [cs H].
  - repeat constructor; cbn; lia.
  - unfold few_keys. vm_compute. discriminate.
  - exists cs. split; [exact H|]. split; [reflexivity|]. split; [vm_compute; reflexivity|vm_compute; discriminate].
Qed.

(** C83 fails for the sender: any node can set the attribute "_np.from" for its messages (the call answers success), and the
    receiver is then told that the message is from whoever was chosen. *)
Theorem C83_any_sender_refuted : forall me other cs, length me = 32%nat -> length other = 32%nat -> caches_of [] [] [] cs ->
  exists cs', set_ident_attr cs None 0 from_key other = Done (np_data_ok, None, cs') /\
    forall junk data, Z.of_nat (length junk) = 10240 -> Z.of_nat (length data) <= 4294967295 ->
    exists h tree, message_body me cs' junk data = Done h /\ vrun h = Ok tree /\
      forall uuid subject, exists a, converted uuid subject (entries tree) = Done (Some (mkMsg uuid subject other data a)).
Proof.
  intros me other cs Lm Lo Hc. destruct (set_from cs other ltac:(lia) ltac:(lia) Hc) as (cs' & E & Hc'). exists cs'. split; [exact E|]. intros junk data Lj Ld.
  destruct (sent_and_read me _ _ _ cs' junk data Lm Hc' Lj) as (h & tree & bs & E1 & E2 & _ & _ & a & _ & E5). exists h, tree. split; [exact E1|]. split; [exact E2|].
  intros uuid subject. exists a. rewrite E5, set_from_store by lia. cbn [sender_of]. rewrite Lo. cbn [Nat.eqb rbind]. unfold u32. rewrite Z.mod_small by lia. rewrite Nat2Z.id, firstn_all. reflexivity.
Qed.
(** C83 fails for the receiver: if that attribute does not have 32 bytes, every receiver of the message ends with a failed
    assertion. *)
Theorem C83_receiver_aborts_refuted : forall me other cs, length me = 32%nat -> length other <> 32%nat -> length other <> 24%nat -> Z.of_nat (length other) <= 10000 ->
  caches_of [] [] [] cs ->
  exists cs', set_ident_attr cs None 0 from_key other = Done (np_data_ok, None, cs') /\
    forall junk data, Z.of_nat (length junk) = 10240 -> exists h tree, message_body me cs' junk data = Done h /\ vrun h = Ok tree /\
      forall uuid subject, converted uuid subject (entries tree) = Aborts.
Proof.
  intros me other cs Lm N1 N2 L Hc. destruct (set_from cs other N2 L Hc) as (cs' & E & Hc'). exists cs'. split; [exact E|]. intros junk data Lj.
  destruct (sent_and_read me _ _ _ cs' junk data Lm Hc' Lj) as (h & tree & bs & E1 & E2 & _ & _ & a & _ & E5). exists h, tree. split; [exact E1|]. split; [exact E2|].
  intros uuid subject. rewrite E5, set_from_store by assumption. cbn [sender_of]. rewrite (proj2 (Nat.eqb_neq _ _) N1). reflexivity.
Qed.
Example C83_fresh_ex : exists cs, caches_of [] [] [] cs.
Proof. apply caches_exist; [constructor|unfold few_keys; vm_compute; discriminate]. Qed.
(** C83 fails for attributes: two attributes whose setting was answered with success, together more than a message can
    carry: the second is not in the message, and nobody is told. *)
Definition big : list Z := repeat 7 (Z.to_nat 5200).
Theorem C83_attribute_dropped_refuted : forall me, length me = 32%nat ->
  fst (spec_writes 10240 [([97], DBin big)] []) = [np_data_ok] /\ fst (spec_writes 10240 [([98], DBin big)] []) = [np_data_ok] /\
  (exists cs, caches_of [([97], DBin big)] [([98], DBin big)] [] cs) /\
  lookup [97] (sent_store me [([97], DBin big)] [([98], DBin big)] []) = Some (DBin big) /\
  lookup [98] (sent_store me [([97], DBin big)] [([98], DBin big)] []) = None.
Proof.
  intros me Lm. assert (Lb : Z.of_nat (length big) = 5200) by (unfold big; rewrite repeat_length; reflexivity).
  assert (Ga : good_key [97]) by (repeat split; cbn; try lia; repeat constructor; lia). assert (Gb : good_key [98]) by (repeat split; cbn; try lia; repeat constructor; lia).
  assert (Gv : good_value (DBin big)) by (cbn - [big]; lia). destruct (from_fits me ltac:(lia) ltac:(lia)) as [[Gf Gm] _].
  assert (Sa : Z.of_nat (length (Data_Model.encode [97] (DBin big))) = 5205) by (rewrite <- size_exact by assumption; unfold object_size; rewrite Lb; reflexivity).
  assert (Sb : Z.of_nat (length (Data_Model.encode [98] (DBin big))) = 5205) by (rewrite <- size_exact by assumption; unfold object_size; rewrite Lb; reflexivity).
  assert (Sf : Z.of_nat (length (Data_Model.encode from_key (DBin me))) = 43) by (rewrite <- size_exact by assumption; unfold object_size; rewrite Lm; reflexivity).
  assert (Wa : spec_writes 10240 [([97], DBin big)] [] = ([np_data_ok], [([97], DBin big)])) by (cbn [spec_writes]; unfold spec_set; cbn [put]; unfold bytes_needed; cbn [fold_right fst snd]; rewrite Sa; reflexivity).
  assert (Wb : spec_writes 10240 [([98], DBin big)] [] = ([np_data_ok], [([98], DBin big)])) by (cbn [spec_writes]; unfold spec_set; cbn [put]; unfold bytes_needed; cbn [fold_right fst snd]; rewrite Sb; reflexivity).
  split; [rewrite Wa; reflexivity|]. split; [rewrite Wb; reflexivity|]. split.
  - apply caches_exist; [apply Forall_cons; [split; assumption|]; apply Forall_cons; [split; assumption|apply Forall_nil]|]. unfold few_keys. cbn [map fst app]. clear. vm_compute. discriminate.
  - assert (S : sent_store me [([97], DBin big)] [([98], DBin big)] [] = [(from_key, DBin me); ([97], DBin big)]).
    { assert (N2 : bytes_needed [(from_key, DBin me); ([97], DBin big)] = 5269) by (unfold bytes_needed; cbn [fold_right fst snd]; rewrite Sa, Sf; reflexivity).
      assert (N3 : bytes_needed [(from_key, DBin me); ([97], DBin big); ([98], DBin big)] = 10474) by (unfold bytes_needed; cbn [fold_right fst snd]; rewrite Sa, Sb, Sf; reflexivity).
      unfold sent_store, content. rewrite Wa, Wb. clear Wa Wb Sa Sb Sf Gv Gm Lb. set (d := DBin big) in *. set (g := DBin me) in *. clearbody d g. cbn [snd spec_writes].
      assert (S2 : spec_merge 10240 [([97], d)] [(from_key, g)] = (np_data_ok, [(from_key, g); ([97], d)])) by (cbn [spec_merge]; unfold spec_set; change (put [97] d [(from_key, g)]) with [(from_key, g); ([97], d)]; rewrite N2; reflexivity).
      rewrite S2. cbn [snd]. cbn [spec_merge]. unfold spec_set. change (put [98] d [(from_key, g); ([97], d)]) with [(from_key, g); ([97], d); ([98], d)]. rewrite N3. reflexivity. }
    rewrite S. split; reflexivity.
Qed.
(** C83 fails for messages of 4 GB: of a message of 2^32 bytes nothing arrives *)
Theorem C83_truncated_refuted : forall me w0 w3 w4 cs junk data, length me = 32%nat -> Z.of_nat (length junk) = 10240 -> caches_of w0 w3 w4 cs -> Forall (fun e => fst e <> from_key) (w0 ++ w3 ++ w4) ->
  Z.of_nat (length data) = 4294967296 ->
  exists h tree, message_body me cs junk data = Done h /\ vrun h = Ok tree /\
    forall uuid subject, exists from a, converted uuid subject (entries tree) = Done (Some (mkMsg uuid subject from [] a)) /\ from = me.
Proof.
  intros me w0 w3 w4 cs junk data Lm Lj Hc Hf Ld. destruct (sent_and_read me w0 w3 w4 cs junk data Lm Hc Lj) as (h & tree & bs & E1 & E2 & E3 & E4 & a & G & E5).
  exists h, tree. split; [exact E1|]. split; [exact E2|]. intros uuid subject. exists me, a. split; [|reflexivity]. rewrite E5.
  assert (L : lookup from_key (sent_store me w0 w3 w4) = Some (DBin me)).
  { assert (N : forall ws, incl ws (w0 ++ w3 ++ w4) -> ~ In from_key (map fst (content ws))).
    { intros ws Hi. apply content_keys. intros H. apply in_map_iff in H as (e & E & He). rewrite Forall_forall in Hf. exact (Hf e (Hi e He) E). }
    unfold sent_store. rewrite !merge_other; [reflexivity| | |]; apply N; intros e He; apply in_or_app; [left; exact He|right|right]; apply in_or_app; auto. }
  rewrite L. cbn [sender_of]. rewrite Lm. cbn [Nat.eqb rbind]. rewrite Ld. reflexivity.
Qed.
(** C83: no user data (another kind of message on the same subject): no callback; user data that is no sequence of bytes,
    which any sender can put there: undefined. *)
Theorem C83_no_data : forall uuid subject body, entry [110; 112; 46; 117; 115; 101; 114; 100; 97; 116; 97] body = None -> converted uuid subject body = Done None.
Proof. intros uuid subject body H. unfold converted. change k_userdata with [110; 112; 46; 117; 115; 101; 114; 100; 97; 116; 97]. rewrite H. reflexivity. Qed.
Theorem C83_number_as_data_refuted : forall uuid subject z, converted uuid subject [(UStr [110; 112; 46; 117; 115; 101; 114; 100; 97; 116; 97], VUint z)] = Undef.
Proof. reflexivity. Qed.
Example C83_no_data_ex : entry [110; 112; 46; 117; 115; 101; 114; 100; 97; 116; 97] [(UStr [97], VBin [1])] = None.
Proof. reflexivity. Qed.

(** C84: a message on a known subject is answered with success and queued, exactly once, with the body C83 is about, if
    fewer than 511 jobs wait; without a subject or on a virtual one nothing happens and the answer says so. *)
Theorem C84_answer_partial : forall me w0 w3 w4 cs junk data q job, length me = 32%nat -> Z.of_nat (length junk) = 10240 -> caches_of w0 w3 w4 cs -> node_queue q ->
  (forall virtual, send_to false virtual me cs junk data q job = Done (5, None, q)) /\
  send_to true true me cs junk data q job = Done (6, None, q) /\
  ((waiting q job < 511)%nat -> exists body q', message_body me cs junk data = Done body /\ send_to true false me cs junk data q job = Done (0, Some body, q') /\ Permutation (jq_jobs q') (job :: jq_jobs q)).
Proof.
  intros me w0 w3 w4 cs junk data q job Lm Lj Hc (n & os & h & Hn1 & Hn2 & Hq). split; [reflexivity|]. split; [reflexivity|]. intros Hw.
  destruct (sent_and_read me w0 w3 w4 cs junk data Lm Hc Lj) as (body & _ & _ & E1 & _). destruct (C09_submission_answer_exact n os q h job Hn1 Hn2 Hq) as (b & q' & E & Hb & Ht & _).
  assert (b = true) by (destruct b; [reflexivity|]; pose proof (proj1 Hb eq_refl); unfold waiting in Hw; lia). subst b.
  exists body, q'. split; [exact E1|]. split; [|auto]. unfold send_to. cbn [negb]. rewrite E1. cbn [rbind]. rewrite E. reflexivity.
Qed.
(** C84 fails: with 511 jobs waiting the answer is success, too, but the message is thrown away. *)
Theorem C84_lost_refuted : forall me w0 w3 w4 cs junk data job, length me = 32%nat -> Z.of_nat (length junk) = 10240 -> caches_of w0 w3 w4 cs -> j_periodic job = false ->
  exists q, node_queue q /\ send_to true false me cs junk data q job = Done (0, None, q).
Proof.
  intros me w0 w3 w4 cs junk data job Lm Lj Hc Hp. destruct (filled job Hp 511 (le_n _)) as (os & q & h & E & C). exists q. split; [exists 512%nat, os, h; split; [lia|split; [lia|exact E]]|].
  destruct (sent_and_read me w0 w3 w4 cs junk data Lm Hc Lj) as (body & _ & _ & E1 & _). destruct (C09_submission_answer_exact 512 os q h job ltac:(lia) ltac:(lia) E) as (b & q' & Ei & Hb & _ & Hf).
  rewrite Hp in Hb. cbn [get_lane] in Hb. rewrite (proj2 Hb C) in *. rewrite (Hf eq_refl) in Ei. unfold send_to. cbn [negb]. rewrite E1. cbn [rbind]. rewrite Ei. reflexivity.
Qed.
(** C84 fails: the documented answer for messages that are too long (np_invalid_argument, 5) is never given for a subject *)
Theorem C84_no_limit_refuted : forall virtual me cs junk data q job r b q', send_to true virtual me cs junk data q job = Done (r, b, q') -> r <> 5.
Proof.
  intros virtual me cs junk data q job r b q' H. unfold send_to in H. cbn [negb] in H. destruct virtual; [injection H as <- <- <-; discriminate|].
  destruct (message_body me cs junk data); cbn [rbind] in H; try discriminate. destruct (jq_insert q job) as [[x y]| |]; try discriminate. injection H as <- <- <-. discriminate.
Qed.
Example C84_ex : node_queue (jq_init 512) /\ waiting (jq_init 512) (mkJob 1 0 0 0 false) = 0%nat.
Proof. split; [|reflexivity]. exists 512%nat, [], ([], []). split; [lia|]. split; [lia|reflexivity]. Qed.

(** C85: callbacks are called once each, in the order in which they were added, with the same message, for a message that is
    new and passes the checks of the node; none for one that was seen before or did not pass them.
    Missing: the answers of the callbacks (refuted below). *)
Theorem C85_in_order_partial : forall cs internal uuid subject body m,
  converted uuid subject body = Done (Some m) ->
  (forall b, In b internal -> b = true) -> handle_in_msg true false false internal (register cs) uuid subject body = Done (map (fun c => (cb_name c, m)) cs, true).
Proof.
  intros cs internal uuid subject body m E H. assert (R : register cs = cs).
  { unfold register. assert (X : forall l, fold_left (fun l c => snd (add_receive_cb false true l c)) cs l = l ++ cs); [|apply (X [])]. induction cs as [|c cs IH]; intros l; cbn [fold_left add_receive_cb snd negb andb]; [rewrite app_nil_r; reflexivity|]. rewrite IH, <- app_assoc. reflexivity. }
  rewrite R. unfold handle_in_msg. replace (forallb (fun b => b) internal) with true by (symmetry; apply forallb_forall; intros b Hb; apply H; exact Hb). cbn [negb andb]. clear R H.
  induction cs as [|c cs IH]; cbn [user_callbacks map]; [reflexivity|]. rewrite E. cbn [rbind]. rewrite IH. reflexivity.
Qed.
Theorem C85_not_again : forall is_internal virtual internal cs uuid subject body, handle_in_msg false is_internal virtual internal cs uuid subject body = Done ([], false).
Proof. intros. unfold handle_in_msg. cbn [andb]. rewrite andb_false_r. reflexivity. Qed.
Theorem C85_checked_first : forall unique is_internal virtual internal cs uuid subject body, In false internal -> handle_in_msg unique is_internal virtual internal cs uuid subject body = Done ([], false).
Proof.
  intros unique is_internal virtual internal cs uuid subject body H. unfold handle_in_msg. replace (forallb (fun b => b) internal) with false; [rewrite andb_false_r, andb_false_r; reflexivity|].
  symmetry. apply not_true_is_false. intros X. rewrite forallb_forall in X. specialize (X false H). discriminate X.
Qed.
(** C85: if no callback rejects, this is what the documentation says *)
Theorem C85_as_documented : forall cs internal uuid subject body m,
  converted uuid subject body = Done (Some m) -> (forall b, In b internal -> b = true) -> (forall c, In c cs -> cb_fn c m = true) ->
  handle_in_msg true false false internal (register cs) uuid subject body = Done (documented cs m).
Proof.
  intros cs internal uuid subject body m E H A. rewrite (C85_in_order_partial cs internal uuid subject body m E H). f_equal. clear -A.
  induction cs as [|c cs IH]; cbn [documented map]; [reflexivity|]. rewrite (A c (or_introl eq_refl)). rewrite <- IH by (intros c' H; apply A; right; exact H). reflexivity.
Qed.
(** C85 fails: a callback that rejects a message does not stop the ones after it, and the message counts as received *)
Theorem C85_rejection_refuted : exists cs uuid subject body m, converted uuid subject body = Done (Some m) /\
  documented cs m = ([(0%nat, m)], false) /\ handle_in_msg true false false [] (register cs) uuid subject body = Done ([(0%nat, m); (1%nat, m)], true).
Proof.
  destruct C83_fresh_ex as [cs Hc].
  destruct (C83_delivered_partial (repeat 7 32) [] [] [] cs (repeat 0 (Z.to_nat 10240)) [1; 2; 3] eq_refl ltac:(cbn; lia) ltac:(rewrite repeat_length; lia) Hc ltac:(constructor)) as (h & tree & bs & _ & _ & _ & H).
  destruct (H [] [] []) as (body & a & _ & C & _). set (m := mkMsg [] [] (repeat 7 32) [1; 2; 3] a) in *.
  exists [mkCb 0 (fun _ => false); mkCb 1 (fun _ => true)], [], [], body, m. split; [exact C|]. split; [reflexivity|]. apply (C85_in_order_partial [mkCb 0 (fun _ => false); mkCb 1 (fun _ => true)] [] [] [] body m C). intros b [].
Qed.
(** C85 fails: on a virtual subject (and on one that cannot run), adding a callback is answered with success and does
    nothing *)
Theorem C85_not_registered_refuted : forall virtual running cbs c, virtual = true \/ running = false -> add_receive_cb virtual running cbs c = (0, cbs).
Proof. intros virtual running cbs c [-> | ->]; unfold add_receive_cb; [reflexivity|rewrite andb_false_r; reflexivity]. Qed.

Print Assumptions C83_delivered_partial.
Print Assumptions C83_all_attributes.
Print Assumptions C83_any_sender_refuted.
Print Assumptions C83_receiver_aborts_refuted.
Print Assumptions C83_attribute_dropped_refuted.
Print Assumptions C83_truncated_refuted.
Print Assumptions C83_no_data.
Print Assumptions C83_number_as_data_refuted.
Print Assumptions C84_answer_partial.
Print Assumptions C84_lost_refuted.
Print Assumptions C84_no_limit_refuted.
Print Assumptions C85_in_order_partial.
Print Assumptions C85_not_again.
Print Assumptions C85_checked_first.
Print Assumptions C85_as_documented.
Print Assumptions C85_rejection_refuted.
Print Assumptions C85_not_registered_refuted.
