(** C90 the identity of a node, C91 its intents, C92 attributes of the application in tokens. *)
From Verif Require Import Base Dhkey_Model Dhkey_Spec Dhkey_Proofs Token_Model Token_Spec Token_Proofs Token_Props TokenData_Props.
From Verif Require Import Uuid_Model Data_Model Data_Spec Data_Proofs Issue_Model Issue_Spec Issue_Proofs.
From Coq Require Import String.
Local Open Scope string_scope.
Local Open Scope Z_scope.
Local Open Scope list_scope.
Local Notation length := List.length.

Lemma ready_made C me nd u now till buf ch cs : correct_scheme C -> ready C me nd buf ch cs ->
  exists l1 l2 l3 a, Inv 10240 l1 (c_intent cs) /\ Inv 10240 l2 (c_intent_msg cs) /\ Inv 10240 l3 (c_intent_ident cs) /\
    new_intent C me nd u now till buf ch cs = Done (intent C me u now till ch a) /\
    Inv 10240 (final_store nd (fingerprint C me) (pubsig_of C me u now till ch) ch l1 l2 l3) a.
Proof.
  intros Cc (O & LB & BN & M & K & X & W1 & W2 & W3 & _ & _ & _ & Room).
  destruct (written_inv _ W1) as (l1 & I1). destruct (written_inv _ W2) as (l2 & I2). destruct (written_inv _ W3) as (l3 & I3).
  rewrite (size_inv' _ _ _ I1), (size_inv' _ _ _ I2), (size_inv' _ _ _ I3) in Room.
  destruct (intent_made C Cc me nd u now till buf ch cs l1 l2 l3 O LB BN M K X I1 I2 I3 ltac:(lia)) as (a & E & J).
  exists l1, l2, l3, a. auto.
Qed.
Lemma final_lookup C me nd u now till ch l1 l2 l3 k : correct_scheme C -> NoDup (map fst l1) -> NoDup (map fst l2) -> NoDup (map fst l3) ->
  k <> text "_np.partner_fp" ->
  lookup k (final_store nd (fingerprint C me) (pubsig_of C me u now till ch) ch l1 l2 l3) =
  over (lookup k l3) (over (lookup k l2) (over (lookup k l1) (lookup k (base_store (fingerprint C me) (pubsig_of C me u now till ch) ch)))).
Proof.
  intros Cc N1 N2 N3 P. unfold final_store. rewrite lookup_put. destruct (list_eq_dec Z.eq_dec (text "_np.partner_fp") k); [congruence|].
  rewrite !lookup_merged by assumption. reflexivity.
Qed.

(** ** C91 *)
(** A node that is ready can make an intent, and every node that gets it accepts it until it expires, and sees that the identity of the node signed it. *)
Theorem C91_accepted_partial : forall C me nd u now till buf ch cs, correct_scheme C -> ready C me nd buf ch cs ->
  exists t, new_intent C me nd u now till buf ch cs = Done t /\
    (forall later, later <= expires_at t -> fst (is_valid C block_ops (received t) 16 later) = true) /\
    (forall later, expires_at t < later -> fst (is_valid C block_ops (received t) 16 later) = false) /\
    (exists t', verify_signature C block_ops (received t) (Some (authenticated me)) = Ok (true, t')).
Proof.
  intros C me nd u now till buf ch cs Cc R.
  destruct (ready_made C me nd u now till buf ch cs Cc R) as (l1 & l2 & l3 & a & I1 & I2 & I3 & E & J).
  destruct R as (O & LB & BN & M & K & X & W1 & W2 & W3 & Q1 & Q2 & Q3 & Room).
  pose proof (fp_bytes C Cc me) as B. pose proof (pubsig_length C Cc me u now till ch O) as PL.
  exists (intent C me u now till ch a). split; [exact E|]. set (t := intent C me u now till ch a).
  assert (NR : forall k, reserved (fingerprint C me) k -> lookup k l1 = None /\ lookup k l2 = None /\ lookup k l3 = None).
  { intros k Hk. rewrite <- (attribute_inv _ _ _ k I1), <- (attribute_inv _ _ _ k I2), <- (attribute_inv _ _ _ k I3). auto. }
  assert (At : forall k, reserved (fingerprint C me) k -> k <> text "_np.partner_fp" ->
     np_get_data a k = Done (match lookup k (base_store (fingerprint C me) (pubsig_of C me u now till ch) ch) with Some v => (np_data_ok, Some v) | None => (np_key_not_found, None) end)).
  { intros k Hk Np. rewrite (get_inv _ _ _ k J), (final_lookup C me nd u now till ch l1 l2 l3 k Cc (inv_keys _ _ _ I1) (inv_keys _ _ _ I2) (inv_keys _ _ _ I3) Np).
    destruct (NR k Hk) as (-> & -> & ->). reflexivity. }
  destruct O as (Sc & Pk & Kp). pose proof Cc as (Hs & _ & _ & _).
  assert (Sg : self_signed C (received t)).
  { unfold self_signed. change (hash_input (received t)) with (hash_input (intent_core C me u now till ch)). cbn [signature pk received t intent set_attr set_sig].
    unfold get_hash. change (pk (intent_core C me u now till ch)) with (pk me). rewrite Kp. apply Hs. }
  assert (Sa : attributes_signed C block_ops (received t)).
  { exists (size a). split.
    - cbn [block_ops ad_size]. change (attributes (received t)) with a. rewrite (size_inv _ _ _ J), (size_inv' _ _ _ J). reflexivity.
    - change (attributes (received t)) with a. change (pk (received t)) with (pk me). rewrite Kp. apply Hs. }
  assert (Nu : not_used_up block_ops (received t)).
  { exists (Token_Model.DUint (ch_max ch)), (Token_Model.DUint 0). cbn [block_ops ad_get]. change (attributes (received t)) with a.
    change k_max_threshold with (text "max_threshold"). change k_msg_threshold with (text "msg_threshold").
    rewrite (At (text "max_threshold")) by (try discriminate; right; right; right; left; reflexivity).
    rewrite (At (text "msg_threshold")) by (try discriminate; right; right; right; right; left; reflexivity).
    rewrite !base_lookup by assumption. split; [reflexivity|]. split; [reflexivity|]. cbn [raw_u32]. unfold u32. pose proof (Z.mod_pos_bound (ch_max ch) 4294967296). lia. }
  assert (Mk : marks_true C block_ops (received t)) by (split; discriminate).
  split; [|split].
  - intros later L. apply C36_valid_iff_acceptable; [exact Mk|]. split; [reflexivity|]. split; [exact L|]. split; [auto|]. auto.
  - intros later L. destruct (fst (is_valid C block_ops (received t) 16 later)) eqn:V; [|reflexivity].
    apply C36_valid_iff_acceptable in V; [|exact Mk]. destruct V as (_ & V & _). change (expires_at (received t)) with (expires_at t) in V. lia.
  - unfold verify_signature. cbn [sig_ok received negb]. fold (received t).
    replace (verify C (signature (received t)) (get_hash C (received t)) (pk (received t))) with true by (symmetry; exact Sg).
    cbn [attr_ok set_flags negb].
    assert (Ck : check_attr_sig C block_ops (set_flags (received t) true (attr_ok (received t)) (issuer_ok (received t))) = true).
    { apply check_attr_sig_spec. exact Sa. }
    change (attr_ok (received t)) with false. cbn [negb]. change (attr_ok (received t)) with false in Ck. rewrite Ck.
    cbn [issuer_ok set_flags]. change (issuer_ok (received t)) with false. cbv iota. cbn [issuer set_flags attributes].
    change (issuer (received t)) with (strncpy 65 (bin2hex (fingerprint C me))). rewrite !cstr_hex by (auto; lia).
    rewrite create_bin2hex by assumption. change (fingerprint C (authenticated me)) with (fingerprint C me).
    destruct (list_eq_dec Z.eq_dec (fingerprint C me) (fingerprint C me)) as [_|N]; [|contradiction]. cbn [negb].
    change (negb (is_valid_state (state (authenticated me))) || negb (is_authenticated (state (authenticated me)))) with false. cbv iota.
    change (attributes (received t)) with a. cbn [block_ops ad_get].
    rewrite (At (bin2hex (fingerprint C me))) by first [left; reflexivity | intros Q; apply (text_neq_hex "_np.partner_fp" (fingerprint C me) B); [discriminate|auto]].
    rewrite base_lookup by assumption.
    assert (D : forall s, length (text s) <> 64%nat -> (if list_eq_dec Z.eq_dec (bin2hex (fingerprint C me)) (text s) then true else false) = false).
    { intros s Ls. destruct (list_eq_dec Z.eq_dec _ _) as [Q|]; [|reflexivity]. exfalso. apply (text_neq_hex s (fingerprint C me) B Ls). auto. }
    repeat match goal with |- context [list_eq_dec Z.eq_dec (bin2hex ?f) (text ?s)] => let H := fresh in assert (H := D s ltac:(discriminate)); destruct (list_eq_dec Z.eq_dec (bin2hex f) (text s)); [discriminate|clear H] end.
    destruct (list_eq_dec Z.eq_dec (bin2hex (fingerprint C me)) (bin2hex (fingerprint C me))) as [_|N]; [|contradiction].
    cbn [seen]. rewrite PL. change (96 <? 96)%nat with false. cbv iota.
    pose proof Cc as (_ & Lp & Ls & _). unfold pubsig_of at 1 2. rewrite Kp.
    rewrite skipn_app, (skipn_all2 (pk_of C (sk me))) by (rewrite Lp; lia). rewrite Lp. change (32 - 32)%nat with 0%nat. rewrite skipn_O. cbn [app].
    rewrite (firstn_all2 (sign C (sk me) _)) by (rewrite Ls; lia).
    rewrite firstn_app, (firstn_all2 (pk_of C (sk me))) by (rewrite Lp; lia). rewrite Lp. change (32 - 32)%nat with 0%nat. rewrite firstn_O, app_nil_r.
    match goal with |- context [verify C ?s (get_hash C ?x) ?p] => change (get_hash C x) with (get_hash C (intent_core C me u now till ch)) end.
    rewrite Hs. eexists. reflexivity.
Qed.

(** An intent names the identity of the node and carries its public key, not the secret one, and it ends with the identity at the latest. *)
Theorem C91_intent_of_identity : forall C me nd u now till buf ch cs t, correct_scheme C -> ready C me nd buf ch cs ->
  new_intent C me nd u now till buf ch cs = Done t ->
  cstr 65 (issuer t) = bin2hex (fingerprint C me) /\ pk t = pk me /\ sk t = repeat 0 64 /\
  cstr 255 (subject t) = cstr 254 (ch_subject ch) /\ ttype t = 16 /\ not_before t = now /\
  expires_at t = Z.min (expires_at me) till /\ attribute (attributes t) (text "_np.partner_fp") = Some (DBin nd).
Proof.
  intros C me nd u now till buf ch cs t Cc R E.
  destruct (ready_made C me nd u now till buf ch cs Cc R) as (l1 & l2 & l3 & a & _ & _ & _ & E' & J).
  rewrite E in E'. injection E' as ->. pose proof (fp_bytes C Cc me) as B.
  split; [apply cstr_hex; auto; lia|]. split; [reflexivity|]. split; [reflexivity|]. split.
  { change (subject (intent C me u now till ch a)) with (strncpy 255 (firstn 254 (ch_subject ch))). rewrite cstr_strncpy by lia. unfold cstr.
    rewrite firstn_firstn. reflexivity. }
  split; [reflexivity|]. split; [reflexivity|]. split.
  { change (expires_at (intent C me u now till ch a)) with (if expires_at me <? till then expires_at me else till). destruct (Z.ltb_spec (expires_at me) till); lia. }
  change (attributes (intent C me u now till ch a)) with a. rewrite (attribute_inv _ _ _ _ J). unfold final_store. rewrite lookup_put.
  destruct (list_eq_dec Z.eq_dec _ _); [reflexivity|contradiction].
Qed.

(** FINDING: with max_parallel = 24 no intent can be made, the node stops (its size is calculated one byte too small, C15). *)
Theorem C91_max_parallel_24_refuted : forall C me nd u now till buf ch cs, correct_scheme C ->
  own_identity C me -> length buf = Z.to_nat 10240 -> number (ch_mep ch) -> number (ch_ack ch) -> ch_max ch = 24 ->
  new_intent C me nd u now till buf ch cs = Aborts.
Proof.
  intros C me nd u now till buf ch cs Cc O LB M K X.
  destruct (intent_started C Cc me nd u now till buf ch cs O LB) as (a & s & J & E). rewrite E. clear E.
  pose proof (pubsig_length C Cc me u now till ch O) as PL. pose proof (fp_bytes C Cc me) as B.
  assert (R0 := put_room (bin2hex (fingerprint C me)) (DBin (pubsig_of C me u now till ch)) []). rewrite (issuer_size _ _ B PL) in R0. change (bytes_needed []) with 21 in R0.
  set (s0 := put (bin2hex (fingerprint C me)) (DBin (pubsig_of C me u now till ch)) []) in *.
  pose proof (number_size (text "mep_type") _ M) as N1. pose proof (number_size (text "ack_mode") _ K) as N2.
  change (1 + arg_bytes (Z.of_nat (length (text "mep_type"))) + Z.of_nat (length (text "mep_type")) + 8) with 17 in N1.
  change (1 + arg_bytes (Z.of_nat (length (text "ack_mode"))) + Z.of_nat (length (text "ack_mode")) + 8) with 17 in N2.
  assert (R1 := put_room (text "mep_type") (DUint (ch_mep ch)) s0). set (s1 := put (text "mep_type") (DUint (ch_mep ch)) s0) in *.
  assert (R2 := put_room (text "ack_mode") (DUint (ch_ack ch)) s1). set (s2 := put (text "ack_mode") (DUint (ch_ack ch)) s1) in *.
  destruct (must_set_ok (text "mep_type") (DUint (ch_mep ch)) (before C me u now till ch a s) s0 J gk_mep M) as (a1 & E1 & J1); [fold s1; lia|]. rewrite E1. cbn [rbind]. rewrite before_with.
  destruct (must_set_ok (text "ack_mode") (DUint (ch_ack ch)) (before C me u now till ch a1 s) s1 J1 gk_ack K) as (a2 & E2 & J2); [fold s2; lia|]. rewrite E2. cbn [rbind]. rewrite before_with.
  fold s2 in J2. rewrite X.
  assert (L : lookup (text "max_threshold") s2 = None).
  { unfold s2, s1, s0. rewrite !lookup_put. destruct (list_eq_dec Z.eq_dec (text "ack_mode") (text "max_threshold")); [discriminate|].
    destruct (list_eq_dec Z.eq_dec (text "mep_type") (text "max_threshold")); [discriminate|].
    destruct (list_eq_dec Z.eq_dec (bin2hex (fingerprint C me)) (text "max_threshold")) as [Q|]; [|reflexivity].
    exfalso. apply (text_neq_hex "max_threshold" _ B); [discriminate|auto]. }
  destruct (set_fails 10240 s2 a2 (text "max_threshold") (DUint 24) J2 L) as (b' & Eb & _); [cbn; lia|reflexivity || (vm_compute; discriminate)|vm_compute; reflexivity| |].
  { change (object_size (text "max_threshold") (DUint 24)) with 18. lia. }
  unfold must_set at 1. change (attributes (before C me u now till ch a2 s)) with a2. rewrite Eb. reflexivity.
Qed.

(** ** C92 *)
(** What the application set for intents is found in every intent, the more special setting first. *)
Theorem C92_in_intents : forall C me nd u now till buf ch cs t k, correct_scheme C -> ready C me nd buf ch cs ->
  new_intent C me nd u now till buf ch cs = Done t -> ~ reserved (fingerprint C me) k ->
  attribute (attributes t) k = over (attribute (c_intent_ident cs) k) (over (attribute (c_intent_msg cs) k) (attribute (c_intent cs) k)).
Proof.
  intros C me nd u now till buf ch cs t k Cc R E NR.
  destruct (ready_made C me nd u now till buf ch cs Cc R) as (l1 & l2 & l3 & a & I1 & I2 & I3 & E' & J).
  rewrite E in E'. injection E' as ->. pose proof (fp_bytes C Cc me) as B. change (attributes (intent C me u now till ch a)) with a.
  rewrite (attribute_inv _ _ _ k J), (attribute_inv _ _ _ k I1), (attribute_inv _ _ _ k I2), (attribute_inv _ _ _ k I3).
  unfold reserved in NR. cbn [In] in NR.
  rewrite (final_lookup C me nd u now till ch l1 l2 l3 k Cc (inv_keys _ _ _ I1) (inv_keys _ _ _ I2) (inv_keys _ _ _ I3)) by (intros ->; tauto).
  rewrite base_lookup by assumption.
  repeat match goal with |- context [list_eq_dec Z.eq_dec k ?x] => destruct (list_eq_dec Z.eq_dec k x) as [->|]; [exfalso; tauto|] end.
  destruct (lookup k l1); reflexivity.
Qed.

(** Attributes of a channel (np_set_mxp_attr_bin) are found in its intent after the next update, as long as there is room, and others accept it as before. *)
Theorem C92_of_channel_partial : forall C me nd u now till buf ch cs t p, correct_scheme C -> ready C me nd buf ch cs ->
  new_intent C me nd u now till buf ch cs = Done t -> user_block p -> size (attributes t) + size p - 21 <= 10240 ->
  exists t', update_intent C me p t = Done t' /\
    (forall k, attribute (attributes t') k = over (attribute p k) (attribute (attributes t) k)) /\
    self_signed C (received t') /\ attributes_signed C block_ops (received t').
Proof.
  intros C me nd u now till buf ch cs t p Cc R E W Room.
  destruct (ready_made C me nd u now till buf ch cs Cc R) as (l1 & l2 & l3 & a & _ & _ & _ & E' & J).
  rewrite E in E'. injection E' as ->. destruct (written_inv _ W) as (lp & Ip). set (t := intent C me u now till ch a) in *. change (attributes t) with a in Room.
  rewrite (size_inv' _ _ _ J), (size_inv' _ _ _ Ip) in Room.
  destruct (merge_any p t _ lp J Ip) as (a' & Em & J'). rewrite (spec_merge_fits 10240 _ _ Room) in Em, J'. cbn [fst snd] in Em, J'.
  unfold update_intent. rewrite Em. cbn [rbind fst snd].
  rewrite (sign_attributes_ok C me (with_attributes t a') _ ltac:(cbn; lia) J'). eexists. split; [reflexivity|].
  destruct R as ((Sc & Pk & Kp) & _). pose proof Cc as (Hs & _ & _ & _). split; [|split].
  - intros k. cbn [attributes set_attr with_attributes]. rewrite (attribute_inv _ _ _ k J'), (attribute_inv _ _ _ k Ip). change (attributes t) with a. rewrite (attribute_inv _ _ _ k J).
    apply lookup_merged. apply (inv_keys _ _ _ Ip).
  - unfold self_signed. match goal with |- context [hash_input ?x] => change (hash_input x) with (hash_input (intent_core C me u now till ch)) end.
    cbn [signature pk received t intent set_attr set_sig with_attributes]. unfold get_hash. change (pk (intent_core C me u now till ch)) with (pk me). rewrite Kp. apply Hs.
  - eexists. split; [cbn [block_ops ad_size]; cbn [received attributes set_attr with_attributes]; rewrite (size_inv _ _ _ J'); reflexivity|].
    cbn [received attributes set_attr with_attributes attributes_signature signature pk]. change (pk t) with (pk me). rewrite Kp. apply Hs.
Qed.

(** FINDING: an attribute that np_set_mxp_attr_bin accepted for the channel, but that does not fit into the intent, stops the node. *)
Theorem C92_no_room_in_intent_refuted : forall C me nd u now till buf ch cs t k v p, correct_scheme C -> ready C me nd buf ch cs ->
  new_intent C me nd u now till buf ch cs = Done t -> only p k v ->
  attribute (attributes t) k = None -> 10240 < size (attributes t) + size p - 21 ->
  update_intent C me p t = Aborts.
Proof.
  intros C me nd u now till buf ch cs t k v p Cc R E Op An Room. pose proof (only_inv _ _ _ Op) as Ip.
  destruct (ready_made C me nd u now till buf ch cs Cc R) as (l1 & l2 & l3 & a & _ & _ & _ & E' & J).
  rewrite E in E'. injection E' as ->. set (t := intent C me u now till ch a) in *. change (attributes t) with a in *.
  rewrite (size_inv' _ _ _ J), (size_inv' _ _ _ Ip) in Room. rewrite (attribute_inv _ _ _ k J) in An.
  destruct (merge_any p t _ _ J Ip) as (a' & Em & J'). unfold update_intent. rewrite Em. cbn [rbind fst snd spec_merge]. unfold spec_set.
  rewrite (put_new k v _ An). set (l := final_store _ _ _ _ _ _ _) in *. rewrite needed_one.
  replace (bytes_needed l + bytes_needed [(k, v)] - 21 <=? 10240) with false by lia. reflexivity.
Qed.

Lemma base_none C me u now till ch k : correct_scheme C -> ~ reserved (fingerprint C me) k -> lookup k (base_store (fingerprint C me) (pubsig_of C me u now till ch) ch) = None.
Proof.
  intros Cc NR. pose proof (fp_bytes C Cc me) as B. rewrite base_lookup by assumption. unfold reserved in NR. cbn [In] in NR.
  repeat match goal with |- context [list_eq_dec Z.eq_dec k ?x] => destruct (list_eq_dec Z.eq_dec k x) as [->|]; [exfalso; tauto|] end. reflexivity.
Qed.

(** FINDING: an attribute for all intents that np_set_ident_attr_bin accepted is left out when there is no room, and nobody is told. *)
Theorem C92_left_out_refuted : forall C me nd u now till buf ch p e1 e2 ci cim k v, correct_scheme C -> able C me nd buf ch ->
  only p k v -> empty_block e1 -> empty_block e2 -> ~ reserved (fingerprint C me) k -> 10014 < size p ->
  exists t, new_intent C me nd u now till buf ch (mkCaches p e1 e2 ci cim) = Done t /\ attribute p k = Some v /\ attribute (attributes t) k = None.
Proof.
  intros C me nd u now till buf ch p e1 e2 ci cim k v Cc (O & LB & BN & M & K & X) Op P1 P2 NR Room.
  pose proof (only_inv _ _ _ Op) as Ip. destruct (empty_inv _ P1) as [I1 _]. destruct (empty_inv _ P2) as [I2 _].
  destruct (intent_any C Cc me nd u now till buf ch (mkCaches p e1 e2 ci cim) [(k, v)] [] [] O LB M K X Ip I1 I2) as (a & s & E & J).
  rewrite (size_inv' _ _ _ Ip) in Room.
  pose proof (base_least _ _ ch (fp_bytes C Cc me) (pubsig_length C Cc me u now till ch O)) as BL.
  pose proof (base_room _ _ ch (fp_bytes C Cc me) (pubsig_length C Cc me u now till ch O) M K X) as BR.
  pose proof (base_none C me u now till ch k Cc NR) as Ln.
  set (b := base_store _ _ ch) in *.
  assert (F : fitting (fingerprint C me) (pubsig_of C me u now till ch) ch [(k, v)] [] [] = b).
  { unfold fitting. fold b. cbn [spec_merge]. unfold spec_set. rewrite (put_new k v _ Ln), needed_one.
    replace (bytes_needed b + bytes_needed [(k, v)] - 21 <=? 10240) with false by lia. reflexivity. }
  rewrite F in J. pose proof (put_room (text "_np.partner_fp") (DBin nd) b) as PR. rewrite (partner_size _ BN) in PR.
  destruct (set_partner_ok C me nd (set_state (before C me u now till ch a s) 7) b ltac:(cbn; lia) BN J ltac:(lia)) as (a8 & E8 & J8).
  eexists. split; [rewrite E; exact E8|]. split.
  - rewrite (attribute_inv _ _ _ k Ip). cbn [lookup]. destruct (list_eq_dec Z.eq_dec k k); [reflexivity|contradiction].
  - cbn [attributes set_attr]. rewrite (attribute_inv _ _ _ k J8), lookup_put. destruct (list_eq_dec Z.eq_dec (text "_np.partner_fp") k) as [<-|]; [|exact Ln].
    exfalso. apply NR. unfold reserved. cbn [In]. tauto.
Qed.

(** FINDING: with a little less the attribute is taken, then there is no room for the fingerprint of the node and the node stops: no channel can be used. *)
Theorem C92_no_room_for_node_refuted : forall C me nd u now till buf ch p e1 e2 ci cim k v, correct_scheme C -> able C me nd buf ch ->
  only p k v -> empty_block e1 -> empty_block e2 -> ~ reserved (fingerprint C me) k -> 9965 < size p <= 10002 ->
  new_intent C me nd u now till buf ch (mkCaches p e1 e2 ci cim) = Aborts.
Proof.
  intros C me nd u now till buf ch p e1 e2 ci cim k v Cc (O & LB & BN & M & K & X) Op P1 P2 NR Room.
  pose proof (only_inv _ _ _ Op) as Ip. destruct (empty_inv _ P1) as [I1 _]. destruct (empty_inv _ P2) as [I2 _].
  destruct (intent_any C Cc me nd u now till buf ch (mkCaches p e1 e2 ci cim) [(k, v)] [] [] O LB M K X Ip I1 I2) as (a & s & E & J).
  rewrite (size_inv' _ _ _ Ip) in Room.
  pose proof (base_least _ _ ch (fp_bytes C Cc me) (pubsig_length C Cc me u now till ch O)) as BL.
  pose proof (base_room _ _ ch (fp_bytes C Cc me) (pubsig_length C Cc me u now till ch O) M K X) as BR.
  pose proof (base_none C me u now till ch k Cc NR) as Ln.
  assert (Pn : ~ reserved (fingerprint C me) k -> k <> text "_np.partner_fp") by (intros H ->; apply H; unfold reserved; cbn [In]; tauto). specialize (Pn NR).
  set (b := base_store _ _ ch) in *.
  assert (F : fitting (fingerprint C me) (pubsig_of C me u now till ch) ch [(k, v)] [] [] = b ++ [(k, v)]).
  { unfold fitting. fold b. cbn [spec_merge]. unfold spec_set. rewrite (put_new k v _ Ln), needed_one.
    replace (bytes_needed b + bytes_needed [(k, v)] - 21 <=? 10240) with true by lia. reflexivity. }
  rewrite F in J. rewrite E. unfold set_partner.
  rewrite (must_set_full (text "_np.partner_fp") (DBin nd) (set_state (before C me u now till ch a s) 7) _ J gk_partner); [reflexivity|destruct BN as [L _]; cbn; lia|].
  assert (Lp : lookup (text "_np.partner_fp") (b ++ [(k, v)]) = None).
  { rewrite <- (put_new k v _ Ln), lookup_put. destruct (list_eq_dec Z.eq_dec k (text "_np.partner_fp")); [contradiction|].
    unfold b. rewrite base_lookup by apply (fp_bytes C Cc me).
    repeat match goal with |- context [list_eq_dec Z.eq_dec (text ?x) (text ?y)] => destruct (list_eq_dec Z.eq_dec (text x) (text y)); [discriminate|] end.
    destruct (list_eq_dec Z.eq_dec (text "_np.partner_fp") (bin2hex (fingerprint C me))) as [Q|]; [|reflexivity].
    exfalso. apply (text_neq_hex "_np.partner_fp" _ (fp_bytes C Cc me)); [discriminate|exact Q]. }
  rewrite (put_new _ _ _ Lp), !needed_one. rewrite (needed_cons (text "_np.partner_fp")), (partner_size _ BN). change (bytes_needed []) with 21. lia.
Qed.

(** The attributes of the identity and those set for identities are in the token that is sent with a join. *)
Theorem C92_in_identity : forall C u cs me, correct_scheme C -> own_identity C me -> ttype me = 1 -> signature me = sign C (sk me) (hash C (hash_input me)) ->
  user_block (attributes me) -> user_block (c_ident cs) -> user_block (c_ident_msg cs) -> user_block (c_intent_ident cs) ->
  size (attributes me) + size (c_ident cs) + size (c_ident_msg cs) + size (c_intent_ident cs) - 63 <= 10240 ->
  exists t, public_ident C u cs me = Done t /\
    (forall k, attribute (attributes t) k = over (attribute (c_intent_ident cs) k) (over (attribute (c_ident_msg cs) k) (over (attribute (c_ident cs) k) (attribute (attributes me) k)))) /\
    attributes_signed C block_ops (received t).
Proof.
  intros C u cs me Cc (Sc & Pk & Kp) Ty Sg W0 W1 W2 W3 Room.
  destruct (written_inv _ W0) as (l0 & I0). destruct (written_inv _ W1) as (l1 & I1). destruct (written_inv _ W2) as (l2 & I2). destruct (written_inv _ W3) as (l3 & I3).
  rewrite (size_inv' _ _ _ I0), (size_inv' _ _ _ I1), (size_inv' _ _ _ I2), (size_inv' _ _ _ I3) in Room.
  unfold public_ident. rewrite Ty. change (negb (flag_cmp 1 type_identity)) with false. cbv iota. unfold derive. rewrite Sc. cbn [scope_private Z.leb negb].
  change (negb (1 <=? scope_private)) with false. cbv iota. cbn [rbind].
  set (t0 := mkTok _ _ _ _ _ _ _ _ _ _ _ _ _ _ _ _ _ _ _ _).
  match goal with |- context [may_merge (c_ident cs) ?x] => set (t1 := x) end.
  pose proof (needed_pos l0). pose proof (needed_pos l1). pose proof (needed_pos l2). pose proof (needed_pos l3).
  pose proof (merged_room l1 l0). pose proof (merged_room l2 (merged l1 l0)). pose proof (merged_room l3 (merged l2 (merged l1 l0))).
  destruct (may_merge_ok (c_ident cs) t1 l0 l1 I0 I1) as (a1 & E1 & J1); [lia|]. rewrite E1. cbn [rbind].
  destruct (may_merge_ok (c_ident_msg cs) (with_attributes t1 a1) _ l2 J1 I2) as (a2 & E2 & J2); [lia|]. rewrite E2. cbn [rbind].
  destruct (may_merge_ok (c_intent_ident cs) (with_attributes (with_attributes t1 a1) a2) _ l3 J2 I3) as (a3 & E3 & J3); [lia|]. rewrite E3. cbn [rbind].
  unfold sign_token. cbn [scope with_attributes set_attr t1 t0]. change (scope_private_available <? scope_private_available) with false. cbv iota.
  match goal with |- context [sign_attributes C me ?x] => set (t2 := x) end.
  rewrite (sign_attributes_ok C me t2 _ ltac:(change (scope t2) with 2; lia) J3). cbn [rbind]. rewrite sign_attributes_ok with (l := merged l3 (merged l2 (merged l1 l0))); [|change (scope t2 <= 2); change (scope t2) with 2; lia|exact J3].
  eexists. split; [reflexivity|]. split.
  - intros k. cbn [attributes set_attr]. change (attributes t2) with a3.
    rewrite (attribute_inv _ _ _ k J3), (attribute_inv _ _ _ k I0), (attribute_inv _ _ _ k I1), (attribute_inv _ _ _ k I2), (attribute_inv _ _ _ k I3).
    rewrite !lookup_merged by (eapply inv_keys; eassumption). reflexivity.
  - eexists. split; [cbn [block_ops ad_size]; cbn [received attributes set_attr]; change (attributes t2) with a3; rewrite (size_inv _ _ _ J3); reflexivity|].
    cbn [received attributes set_attr attributes_signature signature pk]. change (pk t2) with (pk me). rewrite Kp. pose proof Cc as (Hs & _). apply Hs.
Qed.

(** ** C90 *)
Lemma imported C now fresh id : correct_scheme C -> object_for fresh id -> good_identity C fresh id -> forall l, Inv 10240 l (u_attributes id) ->
  exists s, sign_token C (user4aaatoken fresh id) (user4aaatoken fresh id) = Done (set_attr (set_sig (user4aaatoken fresh id) (u_signature id)) (u_attributes id) s) /\
    fst (is_valid C block_ops (set_attr (set_sig (user4aaatoken fresh id) (u_signature id)) (u_attributes id) s) 1 now) = (now <=? u_expires_at id).
Proof.
  intros Cc ((Fk & F1 & F2 & F3) & Fs & Ft) (Hk & _ & _ & _ & _ & _ & Sg) l I. unfold sign_token.
  assert (Sc : scope (user4aaatoken fresh id) = 1) by (cbn [scope user4aaatoken]; rewrite Fk; reflexivity). rewrite Sc. change (scope_private_available <? 1) with false. cbv iota.
  rewrite (sign_attributes_ok C (user4aaatoken fresh id) (set_sig (user4aaatoken fresh id) _) l); [|change (scope (user4aaatoken fresh id) <= 2); lia|exact I].
  change (sk (user4aaatoken fresh id)) with (sk fresh). rewrite Fs. change (get_hash C (user4aaatoken fresh id)) with (hash C (hash_input (user4aaatoken fresh id))). rewrite <- Sg.
  eexists. split; [reflexivity|]. unfold is_valid.
  match goal with |- context [ttype ?x] => change (ttype x) with (ttype fresh) end. rewrite Ft. change (negb (flag_cmp 1 1)) with false. cbv iota.
  match goal with |- context [expires_at ?x] => change (expires_at x) with (u_expires_at id) end.
  destruct (Z.ltb_spec (u_expires_at id) now); [replace (now <=? u_expires_at id) with false by lia; reflexivity|].
  cbn [scope set_attr set_sig]. rewrite Sc. change (scope_private_available <? 1) with false. cbn [andb]. cbv iota. change (flag_cmp 1 type_message_intent) with false. cbn [andb fst].
  replace (now <=? u_expires_at id) with true by lia. reflexivity.
Qed.

(** The identity a user gave to a new node is the identity of this node: it has the fingerprint the user calculated, the attributes of the user, and it can
    issue intents.  It is bound to the node and the node to it, and both can be shown to others. *)
Theorem C90_used_partial : forall C now fresh other id x, correct_scheme C -> object_for fresh id -> good_identity C fresh id -> new_node C x -> now <= u_expires_at id ->
  exists x', use_identity C now fresh id x = Done (0, x') /\
    own_identity C (my_identity x') /\ ttype (my_identity x') = 1 /\
    fingerprint C (my_identity x') = np_token_fingerprint C other id /\ fingerprint C (x_node x') = fingerprint C (x_node x) /\
    pk (my_identity x') = u_public_key id /\ expires_at (my_identity x') = u_expires_at id /\
    attribute (attributes (my_identity x')) (text "_np.partner_fp") = Some (DBin (fingerprint C (x_node x))) /\
    attribute (attributes (x_node x')) (text "_np.partner_fp") = Some (DBin (fingerprint C (my_identity x'))) /\
    (forall k, k <> text "_np.partner_fp" -> attribute (attributes (my_identity x')) k = attribute (u_attributes id) k /\
                                             attribute (attributes (x_node x')) k = attribute (attributes (x_node x)) k) /\
    self_signed C (received (my_identity x')) /\ attributes_signed C block_ops (received (my_identity x')) /\ attributes_signed C block_ops (received (x_node x')).
Proof.
  intros C now fresh other id x Cc Of G (Xr & Xi & Xu & (Nsc & Npk & Nkp) & Wn & Rn) Ex.
  pose proof G as (Hk & Br & Bi & Ba & Wu & Ru & Sg). pose proof Of as ((Fk & F1 & F2 & F3) & Fs & Ft).
  destruct (written_inv _ Wu) as (l & I). destruct (written_inv _ Wn) as (ln & In_). rewrite (size_inv' _ _ _ I) in Ru. rewrite (size_inv' _ _ _ In_) in Rn.
  destruct (imported C now fresh id Cc Of G l I) as (s & Es & Ev). unfold use_identity. rewrite Xr, Es. cbn [rbind].
  set (t := set_attr _ (u_attributes id) s) in *. unfold used. rewrite Xu. cbn [existsb].
  change (ttype t) with (ttype fresh). rewrite Ft. rewrite Ev. replace (now <=? u_expires_at id) with true by lia. unfold set_identity. rewrite Xi.
  assert (Sc : scope t = 1) by (unfold t; cbn [scope set_attr set_sig user4aaatoken]; rewrite Fk; reflexivity).
  pose proof (fp_bytes C Cc (x_node x)) as Bn. pose proof (fp_bytes C Cc t) as Bt.
  pose proof (put_room (text "_np.partner_fp") (DBin (fingerprint C (x_node x))) l) as P1. rewrite (partner_size _ Bn) in P1.
  pose proof (put_room (text "_np.partner_fp") (DBin (fingerprint C t)) ln) as P2. rewrite (partner_size _ Bt) in P2.
  destruct (set_partner_ok C t (fingerprint C (x_node x)) t l ltac:(lia) Bn I ltac:(lia)) as (a1 & E1 & J1). rewrite E1. cbn [rbind].
  match goal with |- context [set_partner C (x_node x) (fingerprint C ?y) (x_node x)] => change (fingerprint C y) with (fingerprint C t) end.
  destruct (set_partner_ok C (x_node x) (fingerprint C t) (x_node x) ln ltac:(lia) Bt In_ ltac:(lia)) as (a2 & E2 & J2). rewrite E2. cbn [rbind].
  match goal with |- context [sign_attributes C ?y ?z] => set (t1 := y) end.
  rewrite (sign_attributes_ok C t1 t1 _ ltac:(change (scope t1) with (scope t); lia) J1). cbn [rbind].
  eexists. split; [reflexivity|]. cbn [my_identity x_ident x_node x_running].
  match goal with |- context [own_identity C ?y] => set (t2 := y) end.
  assert (K : pk t2 = pk_of C (sk t2)) by (change (pk t2) with (u_public_key id); change (sk t2) with (sk fresh); rewrite Fs; exact Hk).
  assert (Fp : fingerprint C t2 = fingerprint C t) by reflexivity. pose proof Cc as (Hs & _).
  split; [split; [exact Sc|split; [exact Fk|exact K]]|]. split; [exact Ft|]. split.
  { rewrite Fp. unfold np_token_fingerprint, fingerprint, get_hash. change (hash_input t) with (hash_input (user4aaatoken fresh id)).
    rewrite (imported_hash_input fresh other id) by assumption. reflexivity. }
  split; [reflexivity|]. split; [reflexivity|]. split; [reflexivity|]. change (attributes t2) with a1. cbn [attributes set_attr].
  split; [rewrite (attribute_inv _ _ _ _ J1), lookup_put; destruct (list_eq_dec Z.eq_dec _ _); [reflexivity|contradiction]|].
  split; [rewrite (attribute_inv _ _ _ _ J2), lookup_put; destruct (list_eq_dec Z.eq_dec _ _); [reflexivity|contradiction]|].
  split.
  { intros k Nk. rewrite (attribute_inv _ _ _ _ J1), (attribute_inv _ _ _ _ J2), (attribute_inv _ _ _ _ I), (attribute_inv _ _ _ _ In_), !lookup_put.
    destruct (list_eq_dec Z.eq_dec (text "_np.partner_fp") k); [congruence|]. auto. }
  split; [|split].
  - unfold self_signed. change (hash_input (received t2)) with (hash_input (user4aaatoken fresh id)). change (signature (received t2)) with (u_signature id).
    change (pk (received t2)) with (u_public_key id). rewrite Sg, Hk. apply Hs.
  - eexists. split; [cbn [block_ops ad_size]; change (attributes (received t2)) with a1; rewrite (size_inv _ _ _ J1); reflexivity|].
    change (attributes (received t2)) with a1. change (pk (received t2)) with (pk t2). rewrite K. apply Hs.
  - eexists. split; [cbn [block_ops ad_size]; cbn [received attributes set_attr]; rewrite (size_inv _ _ _ J2); reflexivity|].
    cbn [received attributes set_attr attributes_signature signature pk]. rewrite (size_inv' _ _ _ J2), Nkp. apply Hs.
Qed.

Theorem C90_running_refused : forall C now fresh id x, x_running x = true -> use_identity C now fresh id x = Done (6, x).
Proof. intros C now fresh id x R. unfold use_identity. rewrite R. reflexivity. Qed.

(** FINDING: only the first identity is taken.  np_use_identity with another one returns np_ok as well, and the node goes on with the first. *)
Theorem C90_second_ignored_refuted : forall C now fresh id x t, correct_scheme C -> object_for fresh id -> good_identity C fresh id ->
  x_running x = false -> x_ident x = Some t ->
  exists x', use_identity C now fresh id x = Done (0, x') /\ my_identity x' = t /\ x_node x' = x_node x.
Proof.
  intros C now fresh id x t Cc Of G Xr Xi. pose proof G as (_ & _ & _ & _ & Wu & _ & _). destruct (written_inv _ Wu) as (l & I).
  destruct (imported C now fresh id Cc Of G l I) as (s & Es & Ev). pose proof Of as ((Fk & _) & _ & Ft).
  unfold use_identity. rewrite Xr, Es. cbn [rbind]. set (ti := set_attr _ (u_attributes id) s) in *.
  assert (M : my_identity x = t) by (unfold my_identity; rewrite Xi; reflexivity).
  destruct (used x (fingerprint C ti)); [exists x; auto|]. change (ttype ti) with (ttype fresh). rewrite Ft, Ev. destruct (now <=? u_expires_at id); [|exists x; auto].
  unfold set_identity. rewrite Xi.
  assert (Sc : scope ti = 1) by (unfold ti; cbn [scope set_attr set_sig user4aaatoken]; rewrite Fk; reflexivity).
  rewrite (sign_attributes_ok C ti ti l ltac:(lia) I). cbn [rbind]. eexists. split; [reflexivity|]. auto.
Qed.
(** FINDING: an identity that has expired is not taken, but np_use_identity returns np_ok. *)
Theorem C90_expired_ignored_refuted : forall C now fresh id x, correct_scheme C -> object_for fresh id -> good_identity C fresh id ->
  x_running x = false -> u_expires_at id < now -> use_identity C now fresh id x = Done (0, x).
Proof.
  intros C now fresh id x Cc Of G Xr Ex. pose proof G as (_ & _ & _ & _ & Wu & _ & _). destruct (written_inv _ Wu) as (l & I).
  destruct (imported C now fresh id Cc Of G l I) as (s & Es & Ev). pose proof Of as (_ & _ & Ft).
  unfold use_identity. rewrite Xr, Es. cbn [rbind]. set (ti := set_attr _ (u_attributes id) s) in *. destruct (used _ _); [reflexivity|].
  change (ttype ti) with (ttype fresh). rewrite Ft, Ev. replace (now <=? u_expires_at id) with false by lia. reflexivity.
Qed.
(** FINDING: an identity whose attributes leave no room for the fingerprint of the node stops the process. *)
Theorem C90_full_attributes_refuted : forall C now fresh id x k v, correct_scheme C -> object_for fresh id -> u_public_key id = pk_of C (u_secret_key id) ->
  u_signature id = sign C (u_secret_key id) (hash C (hash_input (user4aaatoken fresh id))) ->
  only (u_attributes id) k v -> k <> text "_np.partner_fp" -> 10240 < size (u_attributes id) + 49 ->
  x_running x = false -> x_ident x = None -> x_used x = [] -> now <= u_expires_at id ->
  use_identity C now fresh id x = Aborts.
Proof.
  intros C now fresh id x k v Cc Of Hk Sg Op Nk Full Xr Xi Xu Ex. pose proof (only_inv _ _ _ Op) as I. rewrite (size_inv' _ _ _ I) in Full.
  pose proof Of as ((Fk & F1 & F2 & F3) & Fs & Ft). unfold use_identity. rewrite Xr. unfold sign_token.
  assert (Sc : scope (user4aaatoken fresh id) = 1) by (cbn [scope user4aaatoken]; rewrite Fk; reflexivity). rewrite Sc. change (scope_private_available <? 1) with false. cbv iota.
  rewrite (sign_attributes_ok C (user4aaatoken fresh id) (set_sig (user4aaatoken fresh id) _) _ ltac:(change (scope (user4aaatoken fresh id) <= 2); lia) I). cbn [rbind].
  set (t := set_attr _ _ _). unfold used. rewrite Xu. cbn [existsb].
  assert (V : fst (is_valid C block_ops t (ttype t) now) = true).
  { unfold is_valid. change (ttype t) with (ttype fresh). rewrite Ft. change (negb (flag_cmp 1 1)) with false. cbv iota. change (expires_at t) with (u_expires_at id).
    replace (u_expires_at id <? now) with false by lia. change (scope t) with (scope (user4aaatoken fresh id)). rewrite Sc. change (scope_private_available <? 1) with false. cbn [andb]. cbv iota.
    change (flag_cmp 1 type_message_intent) with false. reflexivity. }
  rewrite V. unfold set_identity. rewrite Xi. unfold set_partner.
  pose proof (fp_bytes C Cc (x_node x)) as Bn.
  rewrite (must_set_full (text "_np.partner_fp") (DBin (fingerprint C (x_node x))) t _ I gk_partner); [reflexivity|destruct Bn as [L _]; cbn; lia|].
  assert (Ln : lookup (text "_np.partner_fp") [(k, v)] = None) by (cbn [lookup]; destruct (list_eq_dec Z.eq_dec k (text "_np.partner_fp")); [contradiction|reflexivity]).
  rewrite (put_new _ _ _ Ln), needed_one, (needed_cons (text "_np.partner_fp")), (partner_size _ Bn). change (bytes_needed []) with 21. lia.
Qed.

Lemma hash_input_derived me t : realm t = strncpy 255 (realm me) -> issuer t = strncpy 65 (issuer me) -> subject t = strncpy 255 (subject me) -> audience t = strncpy 255 (audience me) ->
  uuid t = uuid me -> pk t = pk me -> issued_at t = issued_at me -> not_before t = not_before me -> expires_at t = expires_at me -> hash_input t = hash_input me.
Proof.
  intros H1 H2 H3 H4 H5 H6 H7 H8 H9. unfold hash_input. rewrite H1, H2, H3, H4, H5, H6, H7, H8, H9. rewrite !cstr_strncpy by lia. reflexivity.
Qed.

(** The token sent with a join is that identity, without its secret key, whatever attributes were set; others accept it until it expires. *)
Theorem C90_shown : forall C u cs me, correct_scheme C -> own_identity C me -> ttype me = 1 -> signature me = sign C (sk me) (hash C (hash_input me)) ->
  user_block (attributes me) -> user_block (c_ident cs) -> user_block (c_ident_msg cs) -> user_block (c_intent_ident cs) ->
  exists t, public_ident C u cs me = Done t /\ fingerprint C t = fingerprint C me /\ sk t = repeat 0 64 /\
    forall later, fst (is_valid C block_ops (received t) 1 later) = (later <=? expires_at me).
Proof.
  intros C u cs me Cc (Sc & Pk & Kp) Ty Sg W0 W1 W2 W3.
  destruct (written_inv _ W0) as (l0 & I0). destruct (written_inv _ W1) as (l1 & I1). destruct (written_inv _ W2) as (l2 & I2). destruct (written_inv _ W3) as (l3 & I3).
  unfold public_ident. rewrite Ty. change (negb (flag_cmp 1 type_identity)) with false. cbv iota. unfold derive. rewrite Sc.
  change (negb (1 <=? scope_private)) with false. cbv iota. cbn [rbind].
  set (t0 := mkTok _ _ _ _ _ _ _ _ _ _ _ _ _ _ _ _ _ _ _ _).
  match goal with |- context [may_merge (c_ident cs) ?x] => set (t1 := x) end.
  destruct (may_merge_any (c_ident cs) t1 l0 l1 I0 I1) as (a1 & E1 & J1). rewrite E1. cbn [rbind].
  destruct (may_merge_any (c_ident_msg cs) (with_attributes t1 a1) _ l2 J1 I2) as (a2 & E2 & J2). rewrite E2. cbn [rbind].
  destruct (may_merge_any (c_intent_ident cs) (with_attributes (with_attributes t1 a1) a2) _ l3 J2 I3) as (a3 & E3 & J3). rewrite E3. cbn [rbind].
  unfold sign_token. cbn [scope with_attributes set_attr t1 t0]. change (scope_private_available <? scope_private_available) with false. cbv iota.
  match goal with |- context [sign_attributes C me ?x] => set (t2 := x) end.
  set (lm := snd (spec_merge 10240 l3 _)) in J3.
  rewrite (sign_attributes_ok C me t2 lm ltac:(change (scope t2) with 2; lia) J3). cbn [rbind].
  rewrite sign_attributes_ok with (l := lm); [|change (scope t2 <= 2); change (scope t2) with 2; lia|exact J3].
  eexists. split; [reflexivity|].
  match goal with |- fingerprint C ?y = _ /\ _ => set (t := y) end.
  assert (H : hash_input t = hash_input me) by (apply hash_input_derived; reflexivity). pose proof Cc as (Hs & _).
  assert (Sg2 : signature t = signature me).
  { change (signature t) with (sign C (sk me) (hash C (hash_input t))). rewrite H, Sg. reflexivity. }
  split; [unfold fingerprint, get_hash; rewrite H, Sg2; reflexivity|]. split; [reflexivity|].
  intros later. assert (Mk : marks_true C block_ops (received t)) by (split; discriminate).
  assert (Ss : self_signed C (received t)).
  { unfold self_signed. change (hash_input (received t)) with (hash_input t). change (signature (received t)) with (signature t). rewrite H, Sg2, Sg.
    change (pk (received t)) with (pk me). rewrite Kp. apply Hs. }
  assert (Sa : attributes_signed C block_ops (received t)).
  { eexists. split; [cbn [block_ops ad_size]; change (attributes (received t)) with a3; rewrite (size_inv _ _ _ J3); reflexivity|].
    change (attributes (received t)) with a3. change (pk (received t)) with (pk me). rewrite Kp. apply Hs. }
  destruct (Z.leb_spec later (expires_at me)) as [L|L].
  - apply C36_valid_iff_acceptable; [exact Mk|]. change (expires_at (received t)) with (expires_at me).
    split; [change (ttype (received t)) with (ttype me); rewrite Ty; reflexivity|]. split; [exact L|]. split; [auto|].
    change (ttype (received t)) with (ttype me). rewrite Ty. discriminate.
  - destruct (fst (is_valid C block_ops (received t) 1 later)) eqn:V; [|reflexivity].
    apply C36_valid_iff_acceptable in V; [|exact Mk]. destruct V as (_ & V & _). change (expires_at (received t)) with (expires_at me) in V. lia.
Qed.

(** ** The hypotheses can be met *)
Definition ex_fresh : token := toy_fresh (repeat 8 64).
Definition ex_id0 (a : list Z) : user_token :=
  mkUser (repeat 2 16) (strncpy 255 [97]) zero_id zero_id zero_id 5 5 90 (pk_of toy (repeat 8 64)) (repeat 8 64) [] a [].
Definition ex_id (a : list Z) : user_token :=
  mkUser (repeat 2 16) (strncpy 255 [97]) zero_id zero_id zero_id 5 5 90 (pk_of toy (repeat 8 64)) (repeat 8 64)
    (sign toy (repeat 8 64) (hash toy (hash_input (user4aaatoken ex_fresh (ex_id0 a))))) a [].
Definition ex_node (a : list Z) : node := mkNode false (user4aaatoken (toy_fresh (repeat 9 64)) (mkUser (repeat 3 16) [] zero_id zero_id zero_id 1 1 100 (pk_of toy (repeat 9 64)) (repeat 9 64) [] a [])) None [].
Example C90_ex : exists a, object_for ex_fresh (ex_id a) /\ good_identity toy ex_fresh (ex_id a) /\ new_node toy (ex_node a) /\ 50 <= u_expires_at (ex_id a).
Proof.
  destruct empty_exists as (a & Ea). destruct (empty_inv a Ea) as [I U]. exists a. assert (S : size a = 21) by (rewrite (size_inv' _ _ _ I); reflexivity).
  assert (Z0 : bytes32 zero_id) by (split; [reflexivity|repeat constructor; lia]).
  split; [repeat split|]. split; [|split; [|cbn; lia]].
  - split; [reflexivity|]. split; [exact Z0|]. split; [exact Z0|]. split; [exact Z0|]. split; [exact U|]. split; [change (u_attributes (ex_id a)) with a; lia|reflexivity].
  - split; [reflexivity|]. split; [reflexivity|]. split; [reflexivity|]. split; [repeat split|]. split; [exact U|]. change (attributes (x_node (ex_node a))) with a. lia.
Qed.
Definition ex_channel : channel := mkChannel (text "test") None 68 0 30.
Lemma good_a : good_key (text "a"). Proof. good_text. Qed.
(** An application with the attribute "a" in the intents of all channels: [v] is large in the last parts *)
Lemma ex_block n : Z.of_nat n <= 10210 -> n <> 24%nat ->
  exists p, only p (text "a") (DBin (repeat 7 n)) /\ user_block p /\ size p = 24 + arg_bytes (Z.of_nat n) + Z.of_nat n.
Proof.
  intros L N. assert (B : bytes_needed [(text "a", DBin (repeat 7 n))] = 24 + arg_bytes (Z.of_nat n) + Z.of_nat n).
  { rewrite needed_cons, encode_size, repeat_length. change (bytes_needed []) with 21. change (arg_bytes (Z.of_nat (length (text "a")))) with 0. change (Z.of_nat (length (text "a"))) with 1. lia. }
  assert (A : arg_bytes (Z.of_nat n) <= 2) by (unfold arg_bytes; repeat match goal with |- context [if ?x then _ else _] => destruct x eqn:?E end; lia).
  destruct (only_exists (text "a") (DBin (repeat 7 n)) good_a) as (p & O & U).
  - cbn [good_value]. rewrite repeat_length. lia.
  - lia.
  - exists p. split; [exact O|]. split; [exact U|]. rewrite (size_inv' _ _ _ (only_inv _ _ _ O)). exact B.
Qed.
Example C91_ex : exists me buf e p, ready toy me (repeat 5 32) buf ex_channel (mkCaches p e e e e) /\ attribute p (text "a") = Some (DBin (repeat 7 3)) /\
  ~ reserved (fingerprint toy me) (text "a").
Proof.
  destruct empty_exists as (e & Ee). destruct (empty_inv e Ee) as [I U]. destruct (ex_block 3 ltac:(lia) ltac:(lia)) as (p & O & Up & Sp). pose proof (only_inv _ _ _ O) as Ip.
  set (me := user4aaatoken ex_fresh (ex_id e)). exists me, (repeat 0 (Z.to_nat 10240)), e, p.
  assert (Ne : forall fp, no_reserved fp e) by (intros fp k _; rewrite (attribute_inv _ _ _ k I); reflexivity).
  pose proof (fp_bytes toy toy_correct me) as B.
  assert (NR : ~ reserved (fingerprint toy me) (text "a")).
  { unfold reserved. cbn [In]. intros [Q|[Q|[Q|[Q|[Q|[Q|[]]]]]]]; try (apply (text_neq_hex "a" _ B); [discriminate|auto]; fail); discriminate. }
  split; [|split; [|exact NR]].
  - unfold ready. split; [repeat split|]. split; [rewrite repeat_length; reflexivity|]. split; [split; [reflexivity|repeat constructor; lia]|].
    split; [split; [cbn; lia|discriminate]|]. split; [split; [cbn; lia|discriminate]|]. split; [split; [cbn; lia|discriminate]|]. cbn [c_intent c_intent_msg c_intent_ident].
    split; [exact Up|]. split; [exact U|]. split; [exact U|]. split.
    { intros k Hk. rewrite (attribute_inv _ _ _ k Ip). cbn [lookup]. destruct (list_eq_dec Z.eq_dec (text "a") k) as [<-|]; [contradiction|reflexivity]. }
    split; [apply Ne|]. split; [apply Ne|]. rewrite (size_inv' _ _ _ I), Sp. change (bytes_needed []) with 21. change (arg_bytes (Z.of_nat 3)) with 0. lia.
  - rewrite (attribute_inv _ _ _ _ Ip). cbn [lookup]. destruct (list_eq_dec Z.eq_dec (text "a") (text "a")); [reflexivity|contradiction].
Qed.
Lemma arg2 n : 256 <= Z.of_nat n <= 65535 -> arg_bytes (Z.of_nat n) = 2.
Proof. intros H. unfold arg_bytes. repeat match goal with |- context [if ?x then _ else _] => destruct x eqn:?E end; lia. Qed.
(** Sizes for the refuted cases: left out, no room for the node, no room in an intent and in an identity *)
Example C92_sizes_ex : (exists p v, only p (text "a") v /\ 10014 < size p) /\ (exists p v, only p (text "a") v /\ 9965 < size p <= 10002) /\ (exists p v, only p (text "a") v /\ 10240 < size p + 49).
Proof.
  split; [|split].
  - destruct (ex_block (Z.to_nat 10000) ltac:(lia) ltac:(lia)) as (p & O & _ & S). exists p, (DBin (repeat 7 (Z.to_nat 10000))). split; [exact O|]. rewrite S, arg2; lia.
  - destruct (ex_block (Z.to_nat 9950) ltac:(lia) ltac:(lia)) as (p & O & _ & S). exists p, (DBin (repeat 7 (Z.to_nat 9950))). split; [exact O|]. rewrite S, arg2; lia.
  - destruct (ex_block (Z.to_nat 10200) ltac:(lia) ltac:(lia)) as (p & O & _ & S). exists p, (DBin (repeat 7 (Z.to_nat 10200))). split; [exact O|]. rewrite S, arg2; lia.
Qed.

Print Assumptions C91_accepted_partial.
Print Assumptions C91_intent_of_identity.
Print Assumptions C91_max_parallel_24_refuted.
Print Assumptions C92_in_intents.
Print Assumptions C92_of_channel_partial.
Print Assumptions C92_no_room_in_intent_refuted.
Print Assumptions C92_left_out_refuted.
Print Assumptions C92_no_room_for_node_refuted.
Print Assumptions C92_in_identity.
Print Assumptions C90_used_partial.
Print Assumptions C90_running_refused.
Print Assumptions C90_second_ignored_refuted.
Print Assumptions C90_expired_ignored_refuted.
Print Assumptions C90_full_attributes_refuted.
Print Assumptions C90_shown.
