(** C76 tokens on their way between nodes, C77 messages do not stop a node, C78 nobody speaks for another. *)
From Verif Require Import Base Dhkey_Model Tree_Model Tree_Spec Tree_Props Cbor_Model Treeval_Model Treeval_Spec Treeval_Proofs Treeval_Props Wire_Model Data_Model Data_Spec Data_Proofs.
From Verif Require Import Token_Model Token_Spec Token_Proofs Token_Props TokenData_Props In_Model In_Spec In_Proofs.

(** ** C76 *)
(** Every token whose texts are not a single character arrives as it was sent: the tree made of it can be written and read
    back, and what the receiver makes of it has the same fields, the same attributes and the same signatures.
    Missing: tokens with a text of one character (below). *)
Theorem C76_round_trip_partial : forall C P on_curve fresh t t' h, (forall sk m, length (sign C sk m) = 64%nat) ->
  a_token t -> a_new_token fresh -> on_curve (pk t) = true -> encode C t = Ok (t', h) ->
  exists tree bs r, vrun h = Ok tree /\ np_serializer_write_map tree = Some bs /\
    (forall rest, np_serializer_read_map (bs ++ rest) = Some (VTree Plain (entries tree), rest)) /\
    decode P on_curve (entries tree) fresh = Ok (true, r) /\ same_token t' r /\ scope r = 3.
Proof.
  intros C P oc f t t' h Ls T F Oc E.
  assert (L : length (attributes_signature t') = 64%nat).
  { pose proof (encode_inv _ _ _ _ T E) as (_ & _ & _ & _ & _ & _ & _ & _ & _ & _ & _ & _ & _ & U). destruct (scope t <=? 2).
    - destruct (update_sig _ _ _ U) as (n & _ & ->). apply Ls.
    - subst t'. apply T. }
  destruct (there_and_back C P oc f t t' h T F E Oc L) as (tree & Ev & W & K & Hl & Hs & D).
  destruct (C50_tree_round_trip Strings h tree K Ev Hl Hs) as (bs & Eb & R). exists tree, bs, (at_receiver f t').
  split; [exact Ev|]. split; [exact Eb|]. split; [exact R|]. split; [exact D|]. split; [|reflexivity]. apply (same_at_receiver C f t t' h T F E).
Qed.
(** Sending only adds the signature of the attributes: the rest of the token stays as it is. *)
Theorem C76_sent_as_is : forall C t t' h, a_token t -> encode C t = Ok (t', h) -> t' = set_attr t (attributes t) (attributes_signature t').
Proof.
  intros C t t' h T E. pose proof (encode_inv _ _ _ _ T E) as (_ & _ & _ & _ & _ & _ & _ & _ & _ & _ & _ & _ & _ & U). exact (encode_keeps _ _ _ _ E U).
Qed.
(** A token of the node's own that it signed is accepted by every other node until it expires. *)
Theorem C76_arrives_valid_partial : forall C P on_curve fresh now t t' h, correct_scheme C ->
  a_token t -> a_new_token fresh -> on_curve (pk t) = true -> signed_by_owner C t -> counters_ok t -> (2 <= length (cstr 255 (subject t)))%nat ->
  encode C t = Ok (t', h) -> now <= expires_at t ->
  exists tree r, vrun h = Ok tree /\ read_from_tree C now P on_curve fresh (entries tree) = Ok (Some r) /\ same_token t' r.
Proof.
  intros C P oc f now t t' h Sc T F Oc Sg Co Su E Ex. pose proof Sc as (_ & _ & Ls & _). destruct (C76_round_trip_partial C P oc f t t' h Ls T F Oc E) as (tree & bs & r0 & Ev & _ & _ & D & _).
  assert (L : length (attributes_signature t') = 64%nat).
  { pose proof (encode_inv _ _ _ _ T E) as (_ & _ & _ & _ & _ & _ & _ & _ & _ & _ & _ & _ & _ & U). destruct Sg as (S1 & _). rewrite (proj2 (Z.leb_le _ _) S1) in U. destruct (update_sig _ _ _ U) as (n & _ & ->). apply Ls. }
  destruct (there_and_back C P oc f t t' h T F E Oc L) as (tree2 & Ev2 & _ & _ & _ & _ & D2). assert (tree2 = tree) by congruence. subst tree2.
  destruct (arrives_checked C P oc now f t t' h (entries tree) T F E Sc Sg Ex Co D2) as (_ & r & Er & Sm & _). exists tree, r. split; [exact Ev|]. split; [|exact Sm].
  rewrite Er, (proj2 (Nat.ltb_lt _ _)) by lia. reflexivity.
Qed.

(** A token: any private token with an attribute block that was written to *)
Lemma some_block : exists a, length a = Z.to_nat 10240 /\ Inv 10240 [] a.
Proof.
  destruct (init_step (repeat 0 (Z.to_nat 10240)) 10240 ltac:(lia) ltac:(rewrite repeat_length; lia)) as (a & _ & I & L & _). exists a. split; [|exact I]. rewrite L. apply repeat_length.
Qed.
Lemma block_readable a : length a = Z.to_nat 10240 -> Inv 10240 [] a -> readable a /\ intact a /\ forall k, np_get_data a k = Done (np_key_not_found, None).
Proof.
  intros L I. assert (G : forall k, np_get_data a k = Done (np_key_not_found, None)) by (intros k; rewrite (get_inv _ _ _ k I); reflexivity).
  assert (S : np_get_data_size a = (np_data_ok, 21)) by (unfold np_get_data_size; rewrite (inv_header _ _ _ I); reflexivity).
  split; [|split; [|exact G]].
  - split; [exact L|]. split; [exists 21; split; [exact S|lia]|]. split; [intros k; exists (Data_Model.DUint 0); right; apply G|]. intros v. rewrite G. discriminate.
  - split; [exact L|]. exists 21. split; [exact S|lia].
Qed.
(** a token of the type [ty] with the subject [s] *)
Definition a_sample_by (i a : list Z) (ty : Z) (s : list Z) : token :=
  mkTok (repeat 1 16) (repeat 0 255) (strncpy 65 i) (strncpy 255 s) (repeat 0 255) 10 10 100 a (repeat 5 64) (repeat 5 32) (repeat 5 64) (repeat 5 64) 0 ty 1 true false false false.
Definition a_sample := a_sample_by [].
Definition a_fresh (a : list Z) : token :=
  mkTok (repeat 9 16) (repeat 0 255) (repeat 0 65) (repeat 0 255) (repeat 0 255) 10 10 20 a (repeat 0 64) (repeat 0 32) (repeat 0 64) (repeat 0 64) 0 0 0 false false false false.
Lemma sample_by_ok i a ty s : (length i < 65)%nat -> length i <> 1%nat -> Forall (fun b => 1 <= b <= 255) i -> length a = Z.to_nat 10240 -> Inv 10240 [] a -> 0 <= ty < 16 -> (length s < 255)%nat -> length s <> 1%nat -> Forall (fun b => 1 <= b <= 255) s ->
  a_token (a_sample_by i a ty s) /\ a_new_token (a_fresh a) /\ signed_by_owner toy (a_sample_by i a ty s) /\ counters_ok (a_sample_by i a ty s) /\ subject (a_sample_by i a ty s) = strncpy 255 s.
Proof.
  intros Li Li1 Fi L I Ht Ls Ls1 Fs. destruct (block_readable a L I) as (_ & Ia & _).
  assert (R : forall n x, 0 <= x < 256 -> bytes_of n (repeat x n)).
  { intros n x Hx. split; [apply repeat_length|]. apply Forall_forall. intros y Hy. apply repeat_spec in Hy. lia. }
  assert (E : forall n, (0 < n)%nat -> text_in n (repeat 0 n)).
  { intros n Hn. exists []. split; [|split; [exact Hn|split; [discriminate|constructor]]]. unfold strncpy, cstr. rewrite firstn_nil. cbn [until0 length app]. rewrite Nat.sub_0_r. reflexivity. }
  unfold a_token, a_sample_by. cbn [uuid realm issuer subject audience issued_at not_before expires_at attributes attributes_signature pk sk signature state ttype scope private_key_is_set].
  split; [|split; [|split; [|split; [|reflexivity]]]].
  - split; [apply R; lia|]. split; [apply R; lia|]. split; [apply R; lia|]. split; [apply repeat_length|]. split; [apply E; lia|]. split; [exists i; auto|].
    split; [exists s; auto|]. split; [apply E; lia|]. split; [lia|]. unfold a_time. split; [lia|]. split; [lia|]. split; [lia|]. exact Ia.
  - split; [reflexivity|]. split; [exact L|]. split; [reflexivity|]. repeat split.
  - split; [cbn; lia|]. split; reflexivity.
  - intros H. cbn [ttype] in H. exfalso. assert (B : Z.testbit (Z.land ty 16) 4 = true) by (rewrite H; reflexivity). rewrite Z.land_spec in B.
    assert (Z.testbit ty 4 = false); [|rewrite H0 in B; discriminate B]. destruct (Z.eq_dec ty 0) as [-> | N]; [reflexivity|]. apply Z.bits_above_log2; [lia|]. apply Z.log2_lt_pow2; lia.
Qed.
Lemma sample_by_encodes C i a ty s : a_token (a_sample_by i a ty s) -> exists t' h, encode C (a_sample_by i a ty s) = Ok (t', h).
Proof.
  intros T. unfold encode. destruct T as (_ & _ & _ & _ & T1 & T2 & T3 & T4 & _ & _ & _ & _ & (La & n & En & Hn)).
  assert (L1 : (255 <= 255)%nat) by lia. assert (L2 : (65 <= 255)%nat) by lia.
  destruct (text_of_ok _ _ L1 T1) as (x1 & -> & _). destruct (text_of_ok _ _ L2 T2) as (x2 & -> & _). destruct (text_of_ok _ _ L1 T3) as (x3 & -> & _). destruct (text_of_ok _ _ L1 T4) as (x4 & -> & _).
  cbn [obind]. unfold attributes_part. rewrite En, La. cbn [snd]. replace (n <=? Z.of_nat (Z.to_nat 10240)) with true by (symmetry; apply Z.leb_le; lia). cbn [obind].
  unfold a_sample_by at 1. cbn [scope]. change (1 <=? scope_private_available) with true. cbv beta iota.
  unfold update_attributes_signature, attributes_hash. cbn [ad_size block_ops]. rewrite En. replace (scope_private_available <? scope (a_sample_by i a ty s)) with false by reflexivity. cbn [obind]. eauto.
Qed.
Lemma sample_ok a ty s : length a = Z.to_nat 10240 -> Inv 10240 [] a -> 0 <= ty < 16 -> (length s < 255)%nat -> length s <> 1%nat -> Forall (fun b => 1 <= b <= 255) s ->
  a_token (a_sample a ty s) /\ a_new_token (a_fresh a) /\ signed_by_owner toy (a_sample a ty s) /\ counters_ok (a_sample a ty s) /\ subject (a_sample a ty s) = strncpy 255 s.
Proof. apply sample_by_ok; [cbn; lia|discriminate|constructor]. Qed.
Lemma sample_encodes C a ty s : a_token (a_sample a ty s) -> exists t' h, encode C (a_sample a ty s) = Ok (t', h).
Proof. apply sample_by_encodes. Qed.
(** A node token with the subject "ab" *)
Example C76_ex : exists t t' h fresh, a_token t /\ a_new_token fresh /\ signed_by_owner toy t /\ counters_ok t /\ encode toy t = Ok (t', h) /\
  (2 <= length (cstr 255 (subject t)))%nat /\ 50 <= expires_at t.
Proof.
  destruct some_block as (a & L & I). destruct (sample_ok a 2 [97; 98] L I ltac:(lia) ltac:(cbn; lia) ltac:(discriminate) ltac:(repeat constructor; lia)) as (T & F & S & K & _).
  destruct (sample_encodes toy _ _ _ T) as (t' & h & E). exists (a_sample a 2 [97; 98]), t', h, (a_fresh a). repeat (split; [assumption|]). split; [cbn; lia|cbn; lia].
Qed.

(** FINDING: a token with a text of one character is undefined behaviour at the receiver: the text comes back as a character,
    and the text made of that is a pointer to an argument of a call that has returned. *)
Definition short_token : token :=
  put_realm (a_sample (header_bytes (mkHdr 10240 21 0) ++ repeat 0 (Z.to_nat 10219)) 2 [97; 98]) (strncpy 255 [97]).
Definition short_sent : outcome (option (list Z)) :=
  obind (encode toy short_token) (fun '(_, h) => obind (vrun h) (fun tree => Ok (np_serializer_write_map tree))).
Definition short_received : list (ukey * tval) :=
  match short_sent with Ok (Some bs) => match np_serializer_read_map bs with Some (VTree _ l, _) => l | _ => [] end | _ => [] end.
Theorem C76_short_text_refuted : realm short_token = strncpy 255 [97] /\ (exists bs, short_sent = Ok (Some bs) /\ np_serializer_read_map bs = Some (VTree Plain short_received, [])) /\
  forall P on_curve fresh, decode P on_curve short_received fresh = UB.
Proof.
  split; [reflexivity|]. split.
  - exists (match short_sent with Ok (Some bs) => bs | _ => [] end). split; vm_compute; reflexivity.
  - intros P oc f. assert (E : exists l, short_received = l /\ entry k_uuid l = Some (VBin (repeat 1 16)) /\ (exists v, entry k_type l = Some v) /\ entry k_realm l = Some (VChar 97)).
    { exists short_received. split; [reflexivity|]. split; [vm_compute; reflexivity|]. split; [exists (VUshort 2); vm_compute; reflexivity|vm_compute; reflexivity]. }
    destruct E as (l & -> & E1 & (v & E2) & E3). unfold decode, mandatory, optional. cbv zeta. rewrite E1. cbn [bin length repeat Nat.leb obind firstn]. rewrite E2. cbn [obind]. rewrite E3. reflexivity.
Qed.

(** A token is taken only if it has all of its parts and its public key is one. *)
Lemma mandatory_inv l k t g next r : mandatory l k t g next = Ok (true, r) -> exists v t', entry k l = Some v /\ g v = Ok t' /\ next t' = Ok (true, r).
Proof. unfold mandatory. destruct (entry k l) as [v|]; [|intros [=]]. destruct (g v) as [t'| |] eqn:E; cbn [obind]; try discriminate. eauto 6. Qed.
Lemma optional_inv l k t g next r : optional l k t g next = Ok (true, r) -> next t = Ok (true, r) \/ exists v t', g v = Ok t' /\ next t' = Ok (true, r).
Proof. unfold optional. destruct (entry k l) as [v|]; [|auto]. destruct (g v) as [t'| |] eqn:E; cbn [obind]; try discriminate. eauto 6. Qed.
Lemma optional_keeps {X} (p : token -> X) l k t g next r : (forall v t', g v = Ok t' -> p t' = p t) -> optional l k t g next = Ok (true, r) -> exists t', p t' = p t /\ next t' = Ok (true, r).
Proof. intros H E. apply optional_inv in E as [E | (v & t' & E1 & E2)]; eauto. Qed.
Theorem C76_complete : forall P on_curve l fresh r, decode P on_curve l fresh = Ok (true, r) ->
  on_curve (pk r) = true /\ (forall k, In k [k_uuid; k_type; k_issuer; k_subject; k_public; k_expires; k_signature] -> exists v, entry k l = Some v) /\
  (entry k_extensions l <> None -> exists v, entry k_ext_signature l = Some v).
Proof.
  intros P oc l f r. unfold decode. cbv zeta. generalize (put_type (set_scope f 0) type_undefined). intros t0 E.
  apply mandatory_inv in E as (v0 & t1 & H0 & _ & E). apply mandatory_inv in E as (v1 & t2 & H1 & _ & E).
  apply (optional_keeps (fun _ => tt)) in E as (t3 & _ & E); [|reflexivity].
  apply mandatory_inv in E as (v3 & t4 & H3 & _ & E). apply mandatory_inv in E as (v4 & t5 & H4 & _ & E).
  apply (optional_keeps (fun _ => tt)) in E as (t6 & _ & E); [|reflexivity].
  apply mandatory_inv in E as (v6 & t7 & H6 & _ & E). destruct (oc (pk t7)) eqn:Oc; cbn [negb] in E; [|discriminate E].
  apply mandatory_inv in E as (v7 & t8 & H7 & [= E7] & E). assert (K : pk t8 = pk t7) by (rewrite <- E7; reflexivity).
  apply (optional_keeps pk) in E as (t9 & K9 & E); [|intros v t' [= <-]; reflexivity].
  apply (optional_keeps pk) in E as (t10 & K10 & E); [|intros v t' [= <-]; reflexivity].
  apply mandatory_inv in E as (v10 & t11 & H10 & E10 & E). apply got in E10 as [b E10]. assert (K11 : pk t11 = pk t10) by (rewrite E10; reflexivity).
  assert (G : pk r = pk t11 /\ (entry k_extensions l <> None -> exists v, entry k_ext_signature l = Some v)).
  { destruct (entry k_extensions l) as [v|]; [|injection E as <-; split; [reflexivity|congruence]].
    destruct (bin_upto (Z.to_nat 10240) v) as [e| |]; cbn [obind] in E; try discriminate E.
    apply mandatory_inv in E as (w & t' & Hw & Ew & E). apply got in Ew as [s Ew]. injection E as <-. rewrite Ew. split; [reflexivity|eauto]. }
  destruct G as [G1 G2]. split; [rewrite G1, K11, K10, K9, K; exact Oc|]. split; [|exact G2].
  intros k [<- | [<- | [<- | [<- | [<- | [<- | [<- | []]]]]]]]; eauto.
Qed.

(** ** C77 *)
(** No well formed message stops a node: for every crypto, clock, callback state and every body whose fields, where present,
    are of the kind and size the sender's code gives them, each handler returns. *)
Theorem C77_well_formed_partial : forall C now P on_curve fresh body, readable (attributes fresh) -> well_formed body ->
  (forall alias, returns_ok (in_leave C now P on_curve fresh alias body)) /\
  (forall known me alias, returns_ok (in_join C now P on_curve fresh known me alias body)) /\
  (forall channel, entry URN_INTENT body = None \/ names_id URN_INTENT k_subject [] body -> returns_ok (in_available_sender C now P on_curve fresh channel body)) /\
  (forall channel, names_id URN_INTENT k_subject [] body -> returns_ok (in_available_receiver C now P on_curve fresh channel body)) /\
  (forall known, names_id URN_NODE k_issuer [k_uuid; k_type] body -> returns_ok (in_update C now P on_curve fresh known body)) /\
  (forall made alias, names_id URN_HANDSHAKE k_issuer [k_uuid; k_type] body -> returns_ok (in_handshake C now P on_curve fresh made alias body)).
Proof.
  intros C now P oc f body Rf W. unfold returns_ok.
  assert (In1 : In URN_NODE [URN_NODE; URN_IDENTITY; URN_INTENT; URN_HANDSHAKE]) by (left; reflexivity).
  assert (In2 : In URN_IDENTITY [URN_NODE; URN_IDENTITY; URN_INTENT; URN_HANDSHAKE]) by (right; left; reflexivity).
  assert (In3 : In URN_INTENT [URN_NODE; URN_IDENTITY; URN_INTENT; URN_HANDSHAKE]) by (right; right; left; reflexivity).
  assert (In4 : In URN_HANDSHAKE [URN_NODE; URN_IDENTITY; URN_INTENT; URN_HANDSHAKE]) by (right; right; right; left; reflexivity).
  assert (Tk : forall k v, In k [URN_NODE; URN_IDENTITY; URN_INTENT; URN_HANDSHAKE] -> entry k body = Some v ->
     exists o, token_in C now P oc f v = Ok o /\ forall t, o = Some t -> readable (attributes t)).
  { intros k v I E. destruct (W k v I E) as (w & l & -> & Wl). apply token_total; assumption. }
  split; [|split; [|split; [|split; [|split]]]].
  - intros alias. unfold in_leave. destruct (entry URN_NODE body) as [v|] eqn:E; [|eauto]. destruct (Tk URN_NODE v In1 E) as (o & -> & _). cbn [obind]. destruct o; eauto.
  - intros known me alias. unfold in_join. destruct (entry URN_NODE body) as [v|] eqn:E; [|eauto]. destruct (Tk URN_NODE v In1 E) as (o & -> & Ro). cbn [obind].
    destruct o as [node|]; [|eauto]. specialize (Ro node eq_refl). destruct (readable_valid C now node type_node Ro) as (b & q & -> & Ea & _). cbn [obind].
    destruct b; [|cbn; eauto]. cbn [negb]. cbv zeta. assert (Rq : readable (attributes q)) by (rewrite Ea; exact Ro).
    destruct (entry URN_IDENTITY body) as [w|] eqn:E2; [|eauto]. destruct (Tk _ w In2 E2) as (o2 & -> & Ro2). cbn [obind].
    destruct o2 as [ident|]; [|eauto]. specialize (Ro2 ident eq_refl). destruct (readable_valid C now ident type_identity Ro2) as (b & q2 & -> & Ea2 & _). cbn [obind].
    destruct b; [|cbn; eauto]. cbn [negb]. assert (Rq2 : readable (attributes q2)) by (rewrite Ea2; exact Ro2).
    destruct (readable_partner C q2 Rq2) as (x & ->). cbn [obind]. destruct (_ || _); [eauto|]. destruct (readable_partner C q Rq) as (y & ->). cbn [obind]. destruct (_ || _); eauto.
  - intros ch [E | N]; [unfold in_available_sender; rewrite E; eauto|]. destruct N as (w & l & s & E & Es & Hs & _). unfold in_available_sender. rewrite E. destruct (Tk URN_INTENT _ In3 E) as (o & Eo & _). rewrite Eo. cbn [obind].
    destruct o as [t|]; [|eauto]. rewrite (proj1 (token_texts _ _ _ _ _ _ _ _ Eo) s Es), str_id_text by (apply strncpy_id; [lia|exact Hs]). cbn [obind]. eauto.
  - intros ch (w & l & s & E & Es & Hs & _). unfold in_available_receiver. rewrite E. destruct (Tk URN_INTENT _ In3 E) as (o & Eo & _). rewrite Eo. cbn [obind].
    destruct o as [t|]; [|eauto]. rewrite (proj1 (token_texts _ _ _ _ _ _ _ _ Eo) s Es), str_id_text by (apply strncpy_id; [lia|exact Hs]). cbn [obind]. eauto.
  - intros known (w & l & s & E & Es & Hs & M). unfold in_update. rewrite E. cbn [tree_of obind]. destruct (W _ _ In1 E) as (w' & l' & [= <- <-] & Wl).
    destruct (decode_total P oc l f Wl Rf) as (ok & r & Ed & _ & Rr). rewrite Ed. cbn [obind]. destruct (readable_valid C now r type_handshake Rr) as (b & q & Ev & _). rewrite Ev. cbn [obind]. cbv zeta.
    destruct (b && _); [|eauto]. rewrite (proj1 (valid_texts _ _ _ _ _ _ Ev)). rewrite (decode_issuer P oc l f s ok r); [|apply M; left; reflexivity|apply M; right; left; reflexivity|exact Es|exact Ed].
    rewrite str_id_text by (apply strncpy_id; [lia|exact Hs]). cbn [obind]. eauto.
  - intros made alias (w & l & s & E & Es & Hs & M). unfold in_handshake. rewrite E. destruct (Tk URN_HANDSHAKE _ In4 E) as (o & Eo & Ro). rewrite Eo. cbn [obind].
    destruct o as [t|]; [|eauto]. specialize (Ro t eq_refl). destruct (readable_valid C now t type_handshake Ro) as (b & q & Ev & _). rewrite Ev. cbn [obind]. destruct b; cbn [negb]; [|eauto].
    rewrite (proj1 (valid_texts _ _ _ _ _ _ Ev)), (proj2 (token_texts _ _ _ _ _ _ _ _ Eo) s); [|apply M; left; reflexivity|apply M; right; left; reflexivity|exact Es].
    rewrite str_id_text by (apply strncpy_id; [lia|exact Hs]). cbn [obind]. eauto.
Qed.
(** Every message a node makes of its own tokens is well formed. *)
Lemma short_text s : (2 <= length (cstr 255 (strncpy 255 s)))%nat -> (2 <= length s)%nat.
Proof.
  destruct s as [|x [|y s]]; cbn [length]; try lia.
  - assert (E : cstr 255 (strncpy 255 []) = []) by (vm_compute; reflexivity). rewrite E. cbn. lia.
  - assert (E : forall n m, (length (until0 (firstn n (until0 (firstn m [x]) ++ repeat 0%Z (n - length (until0 (firstn m [x])))))) <= 1)%nat).
    { intros n m. destruct m as [|m]; cbn [firstn until0].
      - assert (G : forall k, until0 (firstn k ([] ++ repeat 0 (n - length (@nil Z)))) = []) by (intros [|k]; cbn [firstn app]; [reflexivity|]; destruct (n - _)%nat; reflexivity). rewrite G. cbn; lia.
      - rewrite firstn_nil. cbn [until0]. destruct (x =? 0).
        + assert (G : forall k, until0 (firstn k ([] ++ repeat 0 (n - length (@nil Z)))) = []) by (intros [|k]; cbn [firstn app]; [reflexivity|]; destruct (n - _)%nat; reflexivity). rewrite G. cbn; lia.
        + destruct n as [|n]; cbn [firstn app until0 length]; [lia|]. destruct (x =? 0); cbn [length]; [lia|].
          assert (G : forall k j, until0 (firstn k (repeat 0 j)) = []) by (intros [|k] [|j]; reflexivity). rewrite G. cbn; lia. }
    intros H. specialize (E 255%nat 255%nat). unfold cstr, strncpy, cstr in H. lia.
Qed.
Theorem C77_own_messages : forall C t t' h tree k w, a_token t -> readable (attributes t) ->
  encode C t = Ok (t', h) -> vrun h = Ok tree -> (2 <= length (cstr 255 (subject t)))%nat -> well_formed [(UStr k, VTree w (entries tree))].
Proof.
  intros C t t' h tree k w T Ra E Ev Su k' v _ Ee.
  assert (v = VTree w (entries tree)) by (cbn [entry] in Ee; destruct (same_key (UStr k) k'); congruence). subst v. exists w, (entries tree). split; [reflexivity|].
  pose proof (encode_inv _ _ _ _ T E) as (r & i & s & a & Er & Ei & Es & Ea & Wr & Wi & Ws & Wa & Eh & U).
  destruct T as ([Lu _] & [Lp _] & [Lsi _] & _ & _ & _ & _ & _ & Hty & Hex & Hia & Hnb & Ha).
  assert (K : keys_of_kind Strings h).
  { subst h. apply good_keys. unfold fields. repeat (apply Forall_cons; [cbn [fst]; split; [|vm_compute; lia]; apply Forall_forall; intros z Hz; vm_compute in Hz; repeat (destruct Hz as [<- | Hz]; [lia|]); contradiction|]). apply Forall_nil. }
  pose proof (entry_bindings h tree K Ev) as Hb. rewrite Eh in Hb. apply fields_found in Hb. unfold holds_token, fields in Hb.
  repeat match goal with H : Forall _ (_ :: _) |- _ => let E := fresh "F" in inversion H as [|? ? E ?]; subst; clear H; cbn [fst snd] in E end.
  assert (Fs : Forall (fun b => 1 <= b <= 255) s) by (inversion Ws; assumption).
  split; [|split; [|split]].
  - intros q n v [Hq | [Hq | [Hq | []]]] Ev2; pose proof (f_equal fst Hq) as Q1; pose proof (f_equal snd Hq) as Q2; clear Hq; cbn [fst snd] in Q1, Q2; subst q n; eexists; (split; [rewrite ?F0, ?F5, ?F9 in Ev2; injection Ev2 as <-; reflexivity|assumption]).
  - intros q v Hq Ev'. assert (Hs : (2 <= length s)%nat) by (apply short_text; rewrite Es; exact Su).
    destruct Hq as [<- | [<- | [<- | [<- | []]]]].
    + exists r. split; [congruence|intros X; discriminate X].
    + exists i. split; [congruence|intros X; discriminate X].
    + exists s. split; [congruence|auto].
    + exists a. split; [congruence|intros X; discriminate X].
  - intros v Ev'. exists (attributes t). split; [exact Ra|]. rewrite F10 in Ev'. injection Ev' as <-. reflexivity.
  - intros v Ev'. rewrite F11 in Ev'. injection Ev' as <-. eauto.
Qed.
Example C77_ex : exists t t' h tree fresh, readable (attributes fresh) /\ a_token t /\ readable (attributes t) /\ encode toy t = Ok (t', h) /\ vrun h = Ok tree /\ well_formed [(UStr URN_NODE, VTree Cwt (entries tree))].
Proof.
  destruct some_block as (a & L & I). destruct (sample_ok a 2 [97; 98] L I ltac:(lia) ltac:(cbn; lia) ltac:(discriminate) ltac:(repeat constructor; lia)) as (T & F & S & K & Es).
  destruct (block_readable a L I) as (Ra & _). destruct (sample_encodes toy _ _ _ T) as (t' & h & E).
  destruct (C76_round_trip_partial toy (mkPuns (fun _ => []) (fun _ => 0) (fun _ => 0)) (fun _ => true) (a_fresh a) _ _ _ ltac:(apply toy_correct) T F eq_refl E) as (tree & _ & _ & Ev & _).
  exists (a_sample a 2 [97; 98]), t', h, tree, (a_fresh a). split; [exact Ra|]. split; [exact T|]. split; [exact Ra|]. split; [exact E|]. split; [exact Ev|].
  apply (C77_own_messages toy _ _ _ _ URN_NODE Cwt T Ra E Ev). rewrite Es. vm_compute. lia.
Qed.

(** FINDING: what is not checked.  A message without the field it is about: *)
Theorem C77_missing_field_refuted : forall C now P on_curve fresh, (forall known, in_update C now P on_curve fresh known [] = UB) /\
  (forall channel, in_available_receiver C now P on_curve fresh channel [] = UB) /\ (forall made alias, in_handshake C now P on_curve fresh made alias [] = UB).
Proof. repeat split. Qed.
(** with a value that is not a tree in its place: *)
Theorem C77_wrong_kind_refuted : forall C now P on_curve fresh v, (forall w l, v <> VTree w l) ->
  (forall alias, in_leave C now P on_curve fresh alias [(UStr URN_NODE, v)] = UB) /\
  (forall known me alias, in_join C now P on_curve fresh known me alias [(UStr URN_NODE, v)] = UB) /\
  (forall known, in_update C now P on_curve fresh known [(UStr URN_NODE, v)] = UB) /\
  (forall channel, in_available_sender C now P on_curve fresh channel [(UStr URN_INTENT, v)] = UB) /\
  (forall channel, in_available_receiver C now P on_curve fresh channel [(UStr URN_INTENT, v)] = UB) /\
  (forall made alias, in_handshake C now P on_curve fresh made alias [(UStr URN_HANDSHAKE, v)] = UB).
Proof.
  intros C now P oc f v N. assert (T : tree_of v = UB) by (destruct v; try reflexivity; exfalso; eapply N; reflexivity).
  assert (T' : token_in C now P oc f v = UB) by (unfold token_in; rewrite T; reflexivity).
  assert (E : forall k, entry k [(UStr k, v)] = Some v) by (intros k; cbn [entry same_key]; destruct (list_eq_dec Z.eq_dec k k); [reflexivity|contradiction]).
  unfold in_leave, in_join, in_update, in_available_sender, in_available_receiver, in_handshake. rewrite !E, T', T. repeat split.
Qed.
(** with an id that is too short in the token: *)
Theorem C77_short_field_refuted : forall C now P on_curve fresh b w made alias, (length b < 16)%nat ->
  in_handshake C now P on_curve fresh made alias [(UStr URN_HANDSHAKE, VTree w [(UStr k_uuid, VBin b)])] = UB.
Proof.
  intros C now P oc f b w made alias L. assert (E : forall k v, entry k [(UStr k, v)] = Some v) by (intros k v; cbn [entry same_key]; destruct (list_eq_dec Z.eq_dec k k); [reflexivity|contradiction]).
  unfold in_handshake. rewrite E. unfold token_in. cbn [tree_of obind]. unfold read_from_tree, decode, mandatory at 1. rewrite E.
  unfold bin. replace (16 <=? length b)%nat with false by (symmetry; apply Nat.leb_gt; exact L). reflexivity.
Qed.
(** properly signed, but without a subject: a stranger ends the node with one handshake. *)
Theorem C77_no_subject_refuted : forall C P on_curve fresh now t t' h made alias w, correct_scheme C ->
  a_token t -> a_new_token fresh -> on_curve (pk t) = true -> signed_by_owner C t -> counters_ok t -> (length (cstr 255 (subject t)) < 2)%nat ->
  encode C t = Ok (t', h) -> now <= expires_at t ->
  exists tree, vrun h = Ok tree /\ in_handshake C now P on_curve fresh made alias [(UStr URN_HANDSHAKE, VTree w (entries tree))] = Abort.
Proof.
  intros C P oc f now t t' h made alias w Sc T F Oc Sg Co Su E Ex. pose proof Sc as (_ & _ & Ls & _).
  assert (L : length (attributes_signature t') = 64%nat).
  { pose proof (encode_inv _ _ _ _ T E) as (_ & _ & _ & _ & _ & _ & _ & _ & _ & _ & _ & _ & _ & U). destruct Sg as (S1 & _). rewrite (proj2 (Z.leb_le _ _) S1) in U. destruct (update_sig _ _ _ U) as (n & _ & ->). apply Ls. }
  destruct (there_and_back C P oc f t t' h T F E Oc L) as (tree & Ev & _ & _ & _ & _ & D).
  destruct (arrives_checked C P oc now f t t' h (entries tree) T F E Sc Sg Ex Co D) as (_ & r & Er & _). exists tree. split; [exact Ev|].
  unfold in_handshake. replace (entry URN_HANDSHAKE [(UStr URN_HANDSHAKE, VTree w (entries tree))]) with (Some (VTree w (entries tree))) by reflexivity.
  unfold token_in. cbn [tree_of obind]. rewrite Er. replace (1 <? length (cstr 255 (subject t)))%nat with false by (symmetry; apply Nat.ltb_ge; lia). reflexivity.
Qed.
Example C77_no_subject_ex : exists t t' h fresh, a_token t /\ a_new_token fresh /\ signed_by_owner toy t /\ counters_ok t /\ encode toy t = Ok (t', h) /\
  (length (cstr 255 (subject t)) < 2)%nat /\ 50 <= expires_at t.
Proof.
  destruct some_block as (a & L & I). destruct (sample_ok a 4 [] L I ltac:(lia) ltac:(cbn; lia) ltac:(discriminate) ltac:(constructor)) as (T & F & S & K & _).
  destruct (sample_encodes toy _ _ _ T) as (t' & h & E). exists (a_sample a 4 []), t', h, (a_fresh a). repeat (split; [assumption|]). split; [vm_compute; lia|cbn; lia].
Qed.
(** with an attribute block whose header says it is longer than it is, in a token signed by its owner: *)
Theorem C77_attributes_size_refuted : forall C now t e n, Z.land (ttype t) e = e -> now <= expires_at t -> scope t = 3 -> self_signed C t -> attr_ok t = false ->
  np_get_data_size (attributes t) = (np_data_ok, n) -> Z.of_nat (length (attributes t)) < n -> is_valid_in C now t e = UB.
Proof.
  intros C now t e n Ht Ex Sc Ss Ao En Hn. unfold is_valid_in, flag_cmp at 1. rewrite Ht, Z.eqb_refl. cbn [negb orb].
  replace (expires_at t <? now) with false by (symmetry; apply Z.ltb_ge; lia). rewrite Sc. change (scope_private_available <? 3) with true. cbv beta iota.
  unfold self_signed in Ss. unfold get_hash. rewrite Ss, andb_false_r, Ao. unfold size_readable. rewrite En. replace (n <=? Z.of_nat (length (attributes t))) with false by (symmetry; apply Z.leb_gt; lia). reflexivity.
Qed.
(** with a partner that is not a fingerprint: *)
Theorem C77_partner_refuted : forall C t b, np_get_data (attributes t) k_partner = Done (np_data_ok, Some (Data_Model.DBin b)) -> length b <> 32%nat -> partner_fp C t = Abort.
Proof. intros C t b E L. unfold partner_fp. rewrite E. cbn [returns obind]. destruct (Nat.eqb_spec (length b) 32); [contradiction|reflexivity]. Qed.
(** a list of nodes with a gap in its numbers: *)
Theorem C77_piggy_refuted : forall P i v, i <> 0 -> in_piggy P [(UInt i, v)] = UB.
Proof.
  intros P i v N. unfold in_piggy. change (Z.to_nat (u16 (Z.of_nat (length [(UInt i, v)])))) with 1%nat. cbn [seq nodes_of entry_int Z.of_nat].
  destruct (Z.eqb_spec 0 i); [congruence|reflexivity].
Qed.
(** a scent at a place there is none: *)
Theorem C77_scent_refuted : forall faded pos i b, faded (VBin b) = false -> i = 0 \/ i < -257 \/ 257 < i -> scent_position faded pos (UInt i, VBin b) = Abort.
Proof.
  intros faded pos i b F H. unfold scent_position. cbn [snd fst]. rewrite F. destruct (Z.ltb_spec i 0).
  - destruct (Z.leb_spec (-257) i); [lia|reflexivity].
  - destruct (Z.ltb_spec 0 i), (Z.leb_spec i 257); cbn [andb]; try reflexivity; lia.
Qed.
(** Lists of nodes numbered from 0 on, with texts for their fields, and scents at one of the places are read. *)
Definition node_texts (v : tval) : Prop :=
  exists w l, v = VTree w l /\ forall k x, In k [k_node_key; k_node_name; k_node_port] -> entry k l = Some x -> exists s, x = VStr s.
Theorem C77_lists_partial : forall P body, Z.of_nat (length body) <= 65535 -> (forall i, 0 <= i < Z.of_nat (length body) -> exists v, entry_int i body = Some v /\ node_texts v) ->
  returns_ok (in_piggy P body).
Proof.
  intros P body L H. unfold in_piggy, u16. rewrite Z.mod_small by lia. rewrite Nat2Z.id.
  assert (G : forall ns, (forall i, In i ns -> (i < length body)%nat) -> returns_ok (nodes_of P body ns)).
  { induction ns as [|i ns IH]; intros Hi; [exists []; reflexivity|]. cbn [nodes_of]. destruct (H (Z.of_nat i) ltac:(specialize (Hi i (or_introl eq_refl)); lia)) as (v & -> & w & l & -> & Ht).
    cbn [tree_of obind]. destruct IH as (r & Er); [intros j Hj; apply Hi; right; exact Hj|].
    assert (N : exists o, node_of P l = Ok o).
    { unfold node_of. destruct (entry k_node_protocol l); [|eauto]. destruct (entry k_node_name l) as [vn|] eqn:E1; [|eauto].
      destruct (Ht k_node_name vn ltac:(right; left; reflexivity) E1) as (s1 & ->). cbn [to_str obind].
      destruct (entry k_node_port l) as [vp|] eqn:E2; [|eauto]. destruct (Ht k_node_port vp ltac:(right; right; left; reflexivity) E2) as (s2 & ->). cbn [to_str obind].
      destruct (entry k_node_key l) as [vk|] eqn:E3; [|cbn [obind]; eauto]. destruct (Ht k_node_key vk ltac:(left; reflexivity) E3) as (s3 & ->). cbn [to_str obind]. eauto. }
    destruct N as (o & ->). cbn [obind]. rewrite Er. cbn [obind]. eexists; reflexivity. }
  apply G. intros i Hi. apply in_seq in Hi. lia.
Qed.
Theorem C77_scents : forall faded pos i b, 1 <= Z.abs i <= 257 -> exists o, scent_position faded pos (UInt i, VBin b) = Ok o /\ forall p, o = Some p -> p = i.
Proof.
  intros faded pos i b H. unfold scent_position. cbn [snd fst]. destruct (faded (VBin b)); [exists None; split; [reflexivity|discriminate]|]. exists (Some i). split; [|congruence].
  destruct (Z.ltb_spec i 0); [rewrite (proj2 (Z.leb_le _ _)) by lia; reflexivity|]. rewrite (proj2 (Z.ltb_lt _ _)), (proj2 (Z.leb_le _ _)) by lia. reflexivity.
Qed.
Example C77_lists_ex : returns_ok (in_piggy (mkPuns (fun _ => []) (fun _ => 0) (fun _ => 0))
  [(UInt 0, VTree Plain [(UStr k_node_protocol, VUshort 1); (UStr k_node_name, VStr [97; 98]); (UStr k_node_port, VStr [49; 50])])]).
Proof. eexists. vm_compute. reflexivity. Qed.

(** ** C78 *)
(** A join has an effect only with a node token that its own key signed and that is not expired, for a node that is known; with
    an identity, only if that is signed in the same way and both name each other as partners. *)
Lemma fresh_unmarked f : a_new_token f -> unmarked f.
Proof. intros (F1 & _ & _ & _ & F2 & F3). split; [exact F1|]. auto. Qed.
Lemma key_eqb_eq a b : key_eqb a b = true <-> a = b.
Proof. unfold key_eqb. destruct (list_eq_dec Z.eq_dec a b); split; congruence. Qed.
Theorem C78_partner : forall C t x, partner_fp C t = Ok x <-> names_partner C t x.
Proof.
  intros C t x. unfold partner_fp, names_partner. cbv zeta. fold k_partner. split.
  - destruct (np_get_data (attributes t) k_partner) as [[[] o]| | |] eqn:E; cbn [returns obind]; intros H; try discriminate H.
    + destruct o as [[b|i|f|s]|]; try discriminate H. destruct (Nat.eqb_spec (length b) 32); [|discriminate H]. injection H as <-. auto.
    + right. split; [eauto|]. injection H as <-. destruct (Z.eqb_spec (hd 0 (issuer t)) 0); auto.
  - intros [[E L] | [[v E] [[N ->] | [N ->]]]]; rewrite E; cbn [returns obind].
    + rewrite L, Nat.eqb_refl. reflexivity.
    + destruct (Z.eqb_spec (hd 0 (issuer t)) 0); [contradiction|reflexivity].
    + rewrite N, Z.eqb_refl. reflexivity.
Qed.
Theorem C78_join_partial : forall C now P on_curve fresh known me alias body es, a_new_token fresh ->
  in_join C now P on_curve fresh known me alias body = Ok es -> es <> [] ->
  exists node, vouched_for C now node /\ Z.land (ttype node) 2 = 2 /\ known (fingerprint C node) = true /\
    ((entry URN_IDENTITY body = None /\ forall e, In e es -> what e = Authn /\ with_token e = node /\ about e = alias /\ (to e = fingerprint C node \/ to e = alias \/ to e = me)) \/
     exists ident, vouched_for C now ident /\ Z.land (ttype ident) 1 = 1 /\ names_partner C ident (fingerprint C node) /\ names_partner C node (fingerprint C ident) /\
       fingerprint C node <> zero_id /\ fingerprint C ident <> zero_id /\
       forall e, In e es -> (what e = NewToken /\ with_token e = node /\ (to e = fingerprint C node \/ to e = alias)) \/ (what e = Authn /\ with_token e = ident /\ to e = me /\ about e = alias)).
Proof.
  intros C now P oc f known me alias body es F E N. apply fresh_unmarked in F. revert E. unfold in_join.
  destruct (entry URN_NODE body) as [v|]; [|intros E; exfalso; congruence].
  destruct (token_in C now P oc f v) as [[node|]| |] eqn:Et; cbn [obind]; try (intros E; exfalso; congruence).
  pose proof (token_proven _ _ _ _ _ _ _ F Et) as (M & _ & _ & _ & Sc).
  destruct (is_valid_in C now node type_node) as [[b q]| |] eqn:Ev; cbn [obind]; try (intros E; exfalso; congruence).
  destruct b; cbn [negb]; [|intros E; exfalso; congruence]. destruct (checked_proven C now node type_node q M Sc Ev) as ((Mq & Q1 & Q2 & Q3 & Q4) & Sq & Ht).
  assert (Tq : Z.land (ttype q) 2 = 2) by (destruct Sq as (_ & _ & _ & _ & _ & _ & _ & _ & _ & _ & _ & _ & _ & -> & _); exact Ht). cbv zeta.
  destruct (entry URN_IDENTITY body) as [w|] eqn:Ei.
  - destruct (token_in C now P oc f w) as [[ident|]| |] eqn:Et2; cbn [obind]; try (intros E; exfalso; congruence).
    pose proof (token_proven _ _ _ _ _ _ _ F Et2) as (M2 & _ & _ & _ & Sc2).
    destruct (is_valid_in C now ident type_identity) as [[b i]| |] eqn:Ev2; cbn [obind]; try (intros E; exfalso; congruence).
    destruct b; cbn [negb]; [|intros E; exfalso; congruence]. destruct (checked_proven C now ident type_identity i M2 Sc2 Ev2) as ((Mi & I1 & I2 & I3 & I4) & Si & Hi).
    assert (Ti : Z.land (ttype i) 1 = 1) by (destruct Si as (_ & _ & _ & _ & _ & _ & _ & _ & _ & _ & _ & _ & _ & -> & _); exact Hi).
    destruct (partner_fp C i) as [x| |] eqn:Px; cbn [obind]; try (intros E; exfalso; congruence).
    destruct (key_eqb zero_id x) eqn:Z1; cbn [orb]; [intros E; exfalso; congruence|]. destruct (key_eqb (fingerprint C q) x) eqn:K1; cbn [negb]; [|intros E; exfalso; congruence].
    destruct (partner_fp C q) as [y| |] eqn:Py; cbn [obind]; try (intros E; exfalso; congruence).
    destruct (key_eqb zero_id y) eqn:Z2; cbn [orb]; [intros E; exfalso; congruence|]. destruct (key_eqb (fingerprint C i) y) eqn:K2; cbn [negb]; [|intros E; exfalso; congruence].
    apply key_eqb_eq in K1, K2. subst x y. destruct (known (fingerprint C q)) eqn:Kn; [|intros E; exfalso; congruence]. intros E.
    exists q. split; [split; [exact Q1|]; split; [exact Q2|exact Q3]|]. split; [exact Tq|]. split; [exact Kn|]. right. exists i.
    split; [split; [exact I1|]; split; [exact I2|exact I3]|]. split; [exact Ti|]. split; [apply C78_partner, Px|]. split; [apply C78_partner, Py|].
    split; [intros X; rewrite X in Z1; rewrite (proj2 (key_eqb_eq _ _) eq_refl) in Z1; discriminate|]. split; [intros X; rewrite X in Z2; rewrite (proj2 (key_eqb_eq _ _) eq_refl) in Z2; discriminate|].
    injection E as <-. intros e [<- | [<- | [<- | []]]]; cbn; auto 10.
  - destruct (known (fingerprint C q)) eqn:Kn; [|intros E; exfalso; congruence]. intros E. exists q. split; [split; [exact Q1|]; split; [exact Q2|exact Q3]|]. split; [exact Tq|]. split; [exact Kn|]. left. split; [reflexivity|].
    injection E as <-. intros e [<- | [<- | [<- | []]]]; cbn; auto 10.
Qed.

(** A leave ends a connection only with a token signed by the key of the node it is a connection to. *)
Theorem C78_leave_partial : forall C now P on_curve fresh alias body es e local, a_new_token fresh ->
  in_leave C now P on_curve fresh alias body = Ok es -> In e es -> shuts_down C now (Some local) e = Ok true ->
  vouched_for C now (with_token e) /\ Z.land (ttype (with_token e)) 2 = 2 /\ pk (with_token e) = pk local /\ (to e = fingerprint C (with_token e) \/ to e = alias).
Proof.
  intros C now P oc f alias body es e local F E Hi Sh. apply fresh_unmarked in F. revert E. unfold in_leave. destruct (entry URN_NODE body) as [v|]; [|intros E; exfalso; inversion E; subst; contradiction].
  destruct (token_in C now P oc f v) as [[t|]| |] eqn:Et; cbn [obind]; try (intros E; exfalso; inversion E; subst; contradiction).
  pose proof (token_proven _ _ _ _ _ _ _ F Et) as (M & T1 & T2 & T3 & Sc). intros E. assert (Et' : with_token e = t /\ (to e = fingerprint C t \/ to e = alias)).
  { injection E as <-. destruct Hi as [<- | [<- | []]]; cbn; auto. }
  destruct Et' as [Ew Eto]. rewrite Ew in *. unfold shuts_down in Sh. rewrite Ew in Sh. destruct (is_valid_in C now t type_node) as [[b q]| |] eqn:Ev; cbn [obind] in Sh; try discriminate Sh.
  destruct b; cbn [andb] in Sh; [|discriminate Sh]. destruct (checked_proven C now t type_node q M Sc Ev) as (_ & Sq & Ht). split; [split; [exact T1|split; [exact T2|exact T3]]|]. split; [exact Ht|]. split; [|exact Eto].
  assert (K : key_eqb (pk q) (pk local) = true) by congruence. apply key_eqb_eq in K. destruct Sq as (_ & _ & _ & _ & _ & _ & _ & _ & _ & _ & Sq & _). congruence.
Qed.

Lemma same_print C a b : same_token a b -> fingerprint C a = fingerprint C b.
Proof.
  intros (R1 & R2 & R3 & R4 & R5 & R6 & R7 & R8 & R9 & R10 & R11 & _). unfold fingerprint, get_hash, hash_input. congruence.
Qed.
Lemma own_token_read C P oc f now t t' h w : correct_scheme C -> a_token t -> a_new_token f -> oc (pk t) = true -> signed_by_owner C t -> counters_ok t ->
  (2 <= length (cstr 255 (subject t)))%nat -> encode C t = Ok (t', h) -> now <= expires_at t ->
  exists tree r, vrun h = Ok tree /\ token_in C now P oc f (VTree w (entries tree)) = Ok (Some r) /\ same_token t' r /\
    forall e, Z.land (ttype t) e = e -> exists q, is_valid_in C now r e = Ok (true, q) /\ same_token t' q /\ state q = 1.
Proof.
  intros Sc T F Oc Sg Co Su E Ex. pose proof Sc as (_ & _ & Ls & _).
  assert (L : length (attributes_signature t') = 64%nat).
  { pose proof (encode_inv _ _ _ _ T E) as (_ & _ & _ & _ & _ & _ & _ & _ & _ & _ & _ & _ & _ & U). destruct Sg as (S1 & _). rewrite (proj2 (Z.leb_le _ _) S1) in U. destruct (update_sig _ _ _ U) as (n & _ & ->). apply Ls. }
  destruct (there_and_back C P oc f t t' h T F E Oc L) as (tree & Ev & _ & _ & _ & _ & D).
  destruct (arrives_checked C P oc now f t t' h (entries tree) T F E Sc Sg Ex Co D) as (_ & r & Er & Sm & _ & _ & Hv). exists tree, r. split; [exact Ev|].
  rewrite (proj2 (Nat.ltb_lt _ _)) in Er by lia. split; [exact Er|]. split; [exact Sm|]. intros e He. destruct (Hv e He) as (q & Eq & Sq & St). exists q. split; [exact Eq|]. split; [exact Sq|].
  rewrite St. destruct F as (_ & _ & _ & -> & _). reflexivity.
Qed.

(** FINDING: the token of a node is known to all it was ever sent to, and nothing in a leave or a join ties it to the
    connection it comes over.  Anybody with the token [t] of a node ends the connection to that node at every other node. *)
Theorem C78_leave_refuted : forall C P on_curve fresh now t t' h, correct_scheme C -> a_token t -> a_new_token fresh -> on_curve (pk t) = true ->
  signed_by_owner C t -> counters_ok t -> (2 <= length (cstr 255 (subject t)))%nat -> encode C t = Ok (t', h) -> now <= expires_at t -> Z.land (ttype t) 2 = 2 ->
  exists tree, vrun h = Ok tree /\ forall alias, exists e e', in_leave C now P on_curve fresh alias [(UStr URN_NODE, VTree Cwt (entries tree))] = Ok [e; e'] /\
    to e = fingerprint C t /\ what e = Shutdown /\ shuts_down C now (Some t) e = Ok true.
Proof.
  intros C P oc f now t t' h Sc T F Oc Sg Co Su E Ex Ty. destruct (own_token_read C P oc f now t t' h Cwt Sc T F Oc Sg Co Su E Ex) as (tree & r & Ev & Er & Sm & Hv).
  exists tree. split; [exact Ev|]. intros alias. unfold in_leave. replace (entry URN_NODE [(UStr URN_NODE, VTree Cwt (entries tree))]) with (Some (VTree Cwt (entries tree))) by reflexivity.
  rewrite Er. cbn [obind]. do 2 eexists. split; [reflexivity|]. cbn [to what]. assert (Fp : fingerprint C t' = fingerprint C t).
  { rewrite (C76_sent_as_is C t t' h T E). reflexivity. }
  split; [rewrite <- (same_print C t' r Sm); exact Fp|]. split; [reflexivity|]. unfold shuts_down. cbn [with_token]. destruct (Hv 2 Ty) as (q & Eq & Sq & _). change type_node with 2. rewrite Eq. cbn [obind andb].
  replace (key_eqb (pk q) (pk t)) with true; [reflexivity|]. symmetry. apply key_eqb_eq. destruct Sq as (_ & _ & _ & _ & _ & _ & _ & _ & _ & <- & _). rewrite (C76_sent_as_is C t t' h T E). reflexivity.
Qed.
(** Anybody who has done a handshake over the connection [alias] and knows the token [t] of another node joins as that node. *)
Theorem C78_join_stranger_refuted : forall C P on_curve fresh now t t' h, correct_scheme C -> a_token t -> a_new_token fresh -> on_curve (pk t) = true ->
  signed_by_owner C t -> counters_ok t -> (2 <= length (cstr 255 (subject t)))%nat -> encode C t = Ok (t', h) -> now <= expires_at t -> Z.land (ttype t) 2 = 2 ->
  exists tree, vrun h = Ok tree /\ forall known me alias allowed, known (fingerprint C t) = true -> (forall q, same_token t' q -> allowed q = true) ->
    exists es e, in_join C now P on_curve fresh known me alias [(UStr URN_NODE, VTree Cwt (entries tree))] = Ok es /\ In e es /\ to e = me /\
      handle_authn C allowed e = Ok [Accept (fingerprint C t); Accept alias].
Proof.
  intros C P oc f now t t' h Sc T F Oc Sg Co Su E Ex Ty. destruct (own_token_read C P oc f now t t' h Cwt Sc T F Oc Sg Co Su E Ex) as (tree & r & Ev & Er & Sm & Hv).
  exists tree. split; [exact Ev|]. intros known me alias allowed Kn Al. unfold in_join. replace (entry URN_NODE [(UStr URN_NODE, VTree Cwt (entries tree))]) with (Some (VTree Cwt (entries tree))) by reflexivity.
  replace (entry URN_IDENTITY [(UStr URN_NODE, VTree Cwt (entries tree))]) with (@None tval) by reflexivity. rewrite Er. cbn [obind]. change type_node with 2. destruct (Hv 2 Ty) as (q & Eq & Sq & St). rewrite Eq. cbn [obind negb].
  assert (Fp : fingerprint C q = fingerprint C t). { rewrite <- (same_print C t' q Sq), (C76_sent_as_is C t t' h T E). reflexivity. }
  cbv zeta. rewrite Fp, Kn. cbn [map]. do 2 eexists. split; [reflexivity|]. split; [right; right; left; reflexivity|]. split; [reflexivity|]. unfold handle_authn. cbn [with_token about]. rewrite St. change (is_authenticated 1) with false. cbv beta iota.
  rewrite (Al q Sq). assert (Tq : flag_cmp (ttype q) type_node = true).
  { unfold flag_cmp. destruct Sq as (_ & _ & _ & _ & _ & _ & _ & _ & <- & _). rewrite (C76_sent_as_is C t t' h T E). apply Z.eqb_eq. exact Ty. }
  rewrite Tq. cbn [negb obind]. rewrite Fp. reflexivity.
Qed.
Example C78_ex : exists t t' h fresh, a_token t /\ a_new_token fresh /\ signed_by_owner toy t /\ counters_ok t /\ (2 <= length (cstr 255 (subject t)))%nat /\ encode toy t = Ok (t', h) /\ 50 <= expires_at t /\ Z.land (ttype t) 2 = 2 /\ correct_scheme toy.
Proof.
  destruct some_block as (a & L & I). destruct (sample_ok a 2 [97; 98] L I ltac:(lia) ltac:(cbn; lia) ltac:(discriminate) ltac:(repeat constructor; lia)) as (T & F & S & K & _).
  destruct (sample_encodes toy _ _ _ T) as (t' & h & E). exists (a_sample a 2 [97; 98]), t', h, (a_fresh a). repeat (split; [first [assumption | vm_compute; lia | cbn; lia | reflexivity]|]). exact toy_correct.
Qed.


(** The other messages: an update, an intent or a handshake has an effect only with a token signed by the key in it, of the
    kind the message is about, and only on the keys that token names and the connection. *)
Theorem C78_update : forall C now P on_curve fresh known body es e, a_new_token fresh -> in_update C now P on_curve fresh known body = Ok es -> In e es ->
  vouched_for C now (with_token e) /\ Z.land (ttype (with_token e)) 4 = 4 /\ what e = NewToken /\ to e = id_of_str (issuer (with_token e)) /\ known (to e) = false.
Proof.
  intros C now P oc f known body es e F E Hi. apply fresh_unmarked in F. revert E. unfold in_update. destruct (entry URN_NODE body) as [v|]; [|discriminate].
  destruct (tree_of v) as [l| |]; cbn [obind]; try discriminate. pose proof (decode_unmarked P oc l f F) as D. destruct (decode P oc l f) as [[ok r]| |]; cbn [obind]; try discriminate.
  destruct (D ok r eq_refl) as [(_ & U1 & U2) Sc]. destruct (is_valid_in C now r type_handshake) as [[b q]| |] eqn:Ev; cbn [obind]; try discriminate.
  destruct b; cbn [andb]; [|intros [= <-]; contradiction]. assert (M : marks_true C block_ops r) by (split; congruence).
  destruct (checked_proven C now r type_handshake q M Sc Ev) as ((_ & Q1 & Q2 & Q3 & _) & Sq & Ht). destruct (known (id_of_str (issuer q))) eqn:Kn; cbn [negb]; [intros [= <-]; contradiction|].
  destruct (str_id (issuer q)); cbn [obind]; try discriminate. intros [= <-]. destruct Hi as [<- | []]. cbn. split; [split; [exact Q1|]; split; [exact Q2|exact Q3]|]. split; [|auto].
  destruct Sq as (_ & _ & _ & _ & _ & _ & _ & _ & _ & _ & _ & _ & _ & -> & _). exact Ht.
Qed.
Theorem C78_intent : forall C now P on_curve fresh channel body es e, a_new_token fresh ->
  in_available_sender C now P on_curve fresh channel body = Ok es \/ in_available_receiver C now P on_curve fresh channel body = Ok es -> In e es ->
  vouched_for C now (with_token e) /\ what e = Authz /\ to e = channel (id_of_str (subject (with_token e))).
Proof.
  intros C now P oc f ch body es e F E Hi. apply fresh_unmarked in F.
  assert (G : exists v t, token_in C now P oc f v = Ok (Some t) /\ es = [mkEvent (ch (id_of_str (subject t))) Authz t (ch (id_of_str (subject t)))]).
  { unfold in_available_sender, in_available_receiver in E. destruct (entry URN_INTENT body) as [v|]; [|destruct E as [[= <-] | E]; [contradiction|discriminate E]].
    exists v. destruct (token_in C now P oc f v) as [[t|]| |]; cbn [obind] in E; destruct E as [E | E]; try discriminate E; try (injection E as <-; contradiction);
      (destruct (str_id (subject t)) as [d| |] eqn:Ed; cbn [obind] in E; try discriminate E; apply str_id_inv in Ed as [_ <-]; injection E as <-; eauto). }
  destruct G as (v & t & Et & ->). destruct (token_proven _ _ _ _ _ _ _ F Et) as (_ & T1 & T2 & T3 & _). destruct Hi as [<- | []]. cbn. split; [split; [exact T1|]; split; [exact T2|exact T3]|]. auto.
Qed.
Theorem C78_handshake : forall C now P on_curve fresh made alias body es e, a_new_token fresh -> in_handshake C now P on_curve fresh made alias body = Ok es -> In e es ->
  vouched_for C now (with_token e) /\ Z.land (ttype (with_token e)) 4 = 4 /\ what e = NewToken /\ about e = alias /\ (to e = id_of_str (issuer (with_token e)) \/ made = true /\ to e = alias).
Proof.
  intros C now P oc f made alias body es e F E Hi. apply fresh_unmarked in F. revert E. unfold in_handshake. destruct (entry URN_HANDSHAKE body) as [v|]; [|discriminate].
  destruct (token_in C now P oc f v) as [[t|]| |] eqn:Et; cbn [obind]; try discriminate; [|intros [= <-]; contradiction].
  pose proof (token_proven _ _ _ _ _ _ _ F Et) as (M & _ & _ & _ & Sc). destruct (is_valid_in C now t type_handshake) as [[b q]| |] eqn:Ev; cbn [obind]; try discriminate.
  destruct b; cbn [negb]; [|intros [= <-]; contradiction]. destruct (checked_proven C now t type_handshake q M Sc Ev) as ((_ & Q1 & Q2 & Q3 & _) & Sq & Ht).
  assert (Tq : Z.land (ttype q) 4 = 4) by (destruct Sq as (_ & _ & _ & _ & _ & _ & _ & _ & _ & _ & _ & _ & _ & -> & _); exact Ht).
  destruct (str_id (issuer q)); cbn [obind]; try discriminate. intros [= <-]. assert (V : vouched_for C now q) by (split; [exact Q1|]; split; [exact Q2|exact Q3]).
  destruct Hi as [<- | Hi]; [cbn; auto 10|]. destruct made; [|contradiction]. destruct Hi as [<- | []]. cbn. auto 10.
Qed.

(** And they do have their effect: what a node sends about itself is taken up by every node it reaches. *)
Theorem C78_own_messages_act : forall C P on_curve fresh now t t' h, correct_scheme C -> a_token t -> a_new_token fresh -> on_curve (pk t) = true ->
  signed_by_owner C t -> counters_ok t -> (2 <= length (cstr 255 (subject t)))%nat -> encode C t = Ok (t', h) -> now <= expires_at t ->
  exists tree, vrun h = Ok tree /\
  (id_text (subject t) -> forall channel, exists r, same_token t' r /\ let d := channel (id_of_str (subject t)) in
     in_available_sender C now P on_curve fresh channel [(UStr URN_INTENT, VTree Cwt (entries tree))] = Ok [mkEvent d Authz r d] /\
     in_available_receiver C now P on_curve fresh channel [(UStr URN_INTENT, VTree Cwt (entries tree))] = Ok [mkEvent d Authz r d]) /\
  (id_text (issuer t) -> Z.land (ttype t) 4 = 4 -> exists r, same_token t' r /\ let d := id_of_str (issuer t) in
     (forall alias, in_handshake C now P on_curve fresh true alias [(UStr URN_HANDSHAKE, VTree Cwt (entries tree))] = Ok [mkEvent d NewToken r alias; mkEvent alias NewToken r alias]) /\
     (forall known, known d = false -> exists q, same_token t' q /\ in_update C now P on_curve fresh known [(UStr URN_NODE, VTree Cwt (entries tree))] = Ok [mkEvent d NewToken q d])) /\
  (Z.land (ttype t) 2 = 2 -> exists r, same_token t' r /\ forall known me alias, known (fingerprint C t) = true ->
     in_join C now P on_curve fresh known me alias [(UStr URN_NODE, VTree Cwt (entries tree))] = Ok [mkEvent (fingerprint C t) Authn r alias; mkEvent alias Authn r alias; mkEvent me Authn r alias]).
Proof.
  intros C P oc f now t t' h Sc T F Oc Sg Co Su E Ex. destruct (own_token_read C P oc f now t t' h Cwt Sc T F Oc Sg Co Su E Ex) as (tree & r & Ev & Er & Sm & Hv).
  pose proof Sc as (_ & _ & Ls & _).
  assert (L : length (attributes_signature t') = 64%nat).
  { pose proof (encode_inv _ _ _ _ T E) as (_ & _ & _ & _ & _ & _ & _ & _ & _ & _ & _ & _ & _ & U). destruct Sg as (S1 & _). rewrite (proj2 (Z.leb_le _ _) S1) in U. destruct (update_sig _ _ _ U) as (n & _ & ->). apply Ls. }
  destruct (there_and_back C P oc f t t' h T F E Oc L) as (tree2 & Ev2 & _ & _ & _ & _ & D). assert (tree2 = tree) by congruence. subst tree2.
  pose proof (C76_sent_as_is C t t' h T E) as Keep. exists tree. split; [exact Ev|].
  assert (Es : forall q, same_token t' q -> subject q = subject t) by (intros q (_ & _ & _ & <- & _); rewrite Keep; reflexivity).
  assert (Ei : forall q, same_token t' q -> issuer q = issuer t) by (intros q (_ & _ & <- & _); rewrite Keep; reflexivity).
  split; [|split].
  - intros Is ch. exists r. split; [exact Sm|]. cbv zeta. unfold in_available_sender, in_available_receiver.
    replace (entry URN_INTENT [(UStr URN_INTENT, VTree Cwt (entries tree))]) with (Some (VTree Cwt (entries tree))) by reflexivity. rewrite Er. cbn [obind]. rewrite (Es r Sm), (str_id_text _ Is). auto.
  - intros Ii Ty. destruct (Hv 4 Ty) as (q & Eq & Sq & _). exists q. split; [exact Sq|]. cbv zeta. split.
    + intros alias. unfold in_handshake. replace (entry URN_HANDSHAKE [(UStr URN_HANDSHAKE, VTree Cwt (entries tree))]) with (Some (VTree Cwt (entries tree))) by reflexivity.
      rewrite Er. cbn [obind]. change type_handshake with 4. rewrite Eq. cbn [obind negb]. rewrite (Ei q Sq), (str_id_text _ Ii). reflexivity.
    + intros known Kn. destruct (arrives_checked C P oc now f t t' h (entries tree) T F E Sc Sg Ex Co D) as (Ha & _). destruct (Ha 4 Ty) as (q2 & Eq2 & Sq2). exists q2. split; [exact Sq2|].
      unfold in_update. replace (entry URN_NODE [(UStr URN_NODE, VTree Cwt (entries tree))]) with (Some (VTree Cwt (entries tree))) by reflexivity. cbn [tree_of obind]. rewrite D. cbn [obind].
      change type_handshake with 4. rewrite Eq2. cbn [obind]. rewrite (Ei q2 Sq2). rewrite Kn. cbn [andb negb]. rewrite (str_id_text _ Ii). reflexivity.
  - intros Ty. destruct (Hv 2 Ty) as (q & Eq & Sq & _). exists q. split; [exact Sq|]. intros known me alias Kn. unfold in_join.
    replace (entry URN_NODE [(UStr URN_NODE, VTree Cwt (entries tree))]) with (Some (VTree Cwt (entries tree))) by reflexivity.
    replace (entry URN_IDENTITY [(UStr URN_NODE, VTree Cwt (entries tree))]) with (@None tval) by reflexivity. rewrite Er. cbn [obind]. change type_node with 2. rewrite Eq. cbn [obind negb].
    assert (Fp : fingerprint C q = fingerprint C t). { rewrite <- (same_print C t' q Sq), Keep. reflexivity. }
    cbv zeta. rewrite Fp, Kn. reflexivity.
Qed.
(** a handshake of a node whose fingerprint is 64 times the digit 'b', about a subject that is an id *)
Example C78_own_messages_ex : exists t t' h fresh, a_token t /\ a_new_token fresh /\ signed_by_owner toy t /\ counters_ok t /\ (2 <= length (cstr 255 (subject t)))%nat /\
  encode toy t = Ok (t', h) /\ 50 <= expires_at t /\ id_text (subject t) /\ id_text (issuer t) /\ Z.land (ttype t) 4 = 4.
Proof.
  destruct some_block as (a & L & I). assert (Fd : forall n c, 97 <= c <= 102 -> Forall (fun b => 1 <= b <= 255) (repeat c n)) by (intros n c Hc; apply Forall_forall; intros y Hy; apply repeat_spec in Hy; lia).
  destruct (sample_by_ok (repeat 98 64) a 4 (repeat 97 64) ltac:(rewrite repeat_length; lia) ltac:(rewrite repeat_length; discriminate) ltac:(apply Fd; lia) L I ltac:(lia) ltac:(rewrite repeat_length; lia)
    ltac:(rewrite repeat_length; discriminate) ltac:(apply Fd; lia)) as (T & F & S & K & _).
  destruct (sample_by_encodes toy _ _ _ _ T) as (t' & h & E). exists (a_sample_by (repeat 98 64) a 4 (repeat 97 64)), t', h, (a_fresh a).
  assert (D : forall c, 97 <= c <= 102 -> id_text (repeat c 64)).
  { intros c Hc. split; [rewrite repeat_length; lia|]. apply Forall_forall. intros y Hy. assert (Hy' : In y (repeat c 64)) by (rewrite <- (firstn_skipn 64); apply in_or_app; left; exact Hy). apply repeat_spec in Hy'. lia. }
  split; [exact T|]. split; [exact F|]. split; [exact S|]. split; [exact K|]. split; [vm_compute; lia|]. split; [exact E|]. split; [cbn; lia|].
  cbn [subject issuer a_sample_by ttype]. split; [apply strncpy_id; [lia|apply D; lia]|]. split; [apply strncpy_id; [lia|apply D; lia]|reflexivity].
Qed.
(** FINDING: a message properly signed, with a text that is no id as the subject of an intent or the issuer of a handshake or an update, stops the node it reaches: *)
Theorem C77_no_id_refuted : forall C P on_curve fresh now t t' h w, correct_scheme C -> a_token t -> a_new_token fresh -> on_curve (pk t) = true ->
  signed_by_owner C t -> counters_ok t -> (2 <= length (cstr 255 (subject t)))%nat -> encode C t = Ok (t', h) -> now <= expires_at t ->
  exists tree, vrun h = Ok tree /\
  (~ id_text (subject t) -> forall channel,
     in_available_sender C now P on_curve fresh channel [(UStr URN_INTENT, VTree w (entries tree))] = Abort /\
     in_available_receiver C now P on_curve fresh channel [(UStr URN_INTENT, VTree w (entries tree))] = Abort) /\
  (~ id_text (issuer t) -> Z.land (ttype t) 4 = 4 ->
     (forall made alias, in_handshake C now P on_curve fresh made alias [(UStr URN_HANDSHAKE, VTree w (entries tree))] = Abort) /\
     (forall known, known (id_of_str (issuer t)) = false -> in_update C now P on_curve fresh known [(UStr URN_NODE, VTree w (entries tree))] = Abort)).
Proof.
  intros C P oc f now t t' h w Sc T F Oc Sg Co Su E Ex. destruct (own_token_read C P oc f now t t' h w Sc T F Oc Sg Co Su E Ex) as (tree & r & Ev & Er & Sm & Hv).
  pose proof Sc as (_ & _ & Ls & _).
  assert (L : length (attributes_signature t') = 64%nat).
  { pose proof (encode_inv _ _ _ _ T E) as (_ & _ & _ & _ & _ & _ & _ & _ & _ & _ & _ & _ & _ & U). destruct Sg as (S1 & _). rewrite (proj2 (Z.leb_le _ _) S1) in U. destruct (update_sig _ _ _ U) as (n & _ & ->). apply Ls. }
  destruct (there_and_back C P oc f t t' h T F E Oc L) as (tree2 & Ev2 & _ & _ & _ & _ & D). assert (tree2 = tree) by congruence. subst tree2.
  pose proof (C76_sent_as_is C t t' h T E) as Keep. exists tree. split; [exact Ev|].
  assert (Es : forall q, same_token t' q -> subject q = subject t) by (intros q (_ & _ & _ & <- & _); rewrite Keep; reflexivity).
  assert (Ei : forall q, same_token t' q -> issuer q = issuer t) by (intros q (_ & _ & <- & _); rewrite Keep; reflexivity).
  pose proof T as (_ & _ & _ & _ & _ & (xi & Ti & _) & (xs & Ts & _) & _).
  assert (Li : (64 <= length (issuer t))%nat) by (rewrite <- Ti; pose proof (strncpy_full 65 xi); lia).
  assert (Lu : (64 <= length (subject t))%nat) by (rewrite <- Ts; pose proof (strncpy_full 255 xs); lia).
  split.
  - intros N ch. unfold in_available_sender, in_available_receiver. replace (entry URN_INTENT [(UStr URN_INTENT, VTree w (entries tree))]) with (Some (VTree w (entries tree))) by reflexivity.
    rewrite Er. cbn [obind]. rewrite (Es r Sm), (no_id_text _ Lu N). auto.
  - intros N Ty. destruct (Hv 4 Ty) as (q & Eq & Sq & _). split.
    + intros made alias. unfold in_handshake. replace (entry URN_HANDSHAKE [(UStr URN_HANDSHAKE, VTree w (entries tree))]) with (Some (VTree w (entries tree))) by reflexivity.
      rewrite Er. cbn [obind]. change type_handshake with 4. rewrite Eq. cbn [obind negb]. rewrite (Ei q Sq), (no_id_text _ Li N). reflexivity.
    + intros known Kn. destruct (arrives_checked C P oc now f t t' h (entries tree) T F E Sc Sg Ex Co D) as (Ha & _). destruct (Ha 4 Ty) as (q2 & Eq2 & Sq2).
      unfold in_update. replace (entry URN_NODE [(UStr URN_NODE, VTree w (entries tree))]) with (Some (VTree w (entries tree))) by reflexivity. cbn [tree_of obind]. rewrite D. cbn [obind].
      change type_handshake with 4. rewrite Eq2. cbn [obind]. rewrite (Ei q2 Sq2). rewrite Kn. cbn [andb negb]. rewrite (no_id_text _ Li N). reflexivity.
Qed.
(** a handshake with the subject "ab" and without an issuer *)
Example C77_no_id_ex : exists t t' h fresh, a_token t /\ a_new_token fresh /\ signed_by_owner toy t /\ counters_ok t /\ encode toy t = Ok (t', h) /\
  (2 <= length (cstr 255 (subject t)))%nat /\ 50 <= expires_at t /\ ~ id_text (subject t) /\ ~ id_text (issuer t) /\ Z.land (ttype t) 4 = 4.
Proof.
  destruct some_block as (a & L & I). destruct (sample_ok a 4 [97; 98] L I ltac:(lia) ltac:(cbn; lia) ltac:(discriminate) ltac:(repeat constructor; lia)) as (T & F & S & K & _).
  destruct (sample_encodes toy _ _ _ T) as (t' & h & E). exists (a_sample a 4 [97; 98]), t', h, (a_fresh a). repeat (split; [assumption|]). split; [vm_compute; lia|]. split; [cbn; lia|].
  split; [intros [_ H]; rewrite Forall_forall in H; specialize (H 0 ltac:(vm_compute; do 2 right; left; reflexivity)); lia|]. split; [|reflexivity].
  intros [_ H]. rewrite Forall_forall in H. specialize (H 0 ltac:(vm_compute; left; reflexivity)). lia.
Qed.
(** A list of nodes is read as it is written. *)
Definition describes (v : tval) (n : node_entry) : Prop :=
  exists w l pr, v = VTree w l /\ entry k_node_protocol l = Some pr /\ entry k_node_name l = Some (VStr (n_name n)) /\ entry k_node_port l = Some (VStr (n_port n)) /\
    ((exists k, entry k_node_key l = Some (VStr k) /\ n_key n = firstn 255 k) \/ entry k_node_key l = None /\ n_key n = [42]).
Theorem C77_lists_read : forall P body ns, Z.of_nat (length ns) <= 65535 -> length body = length ns ->
  (forall i n, nth_error ns i = Some n -> exists v, entry_int (Z.of_nat i) body = Some v /\ describes v n) -> in_piggy P body = Ok ns.
Proof.
  intros P body ns L Lb H. unfold in_piggy, u16. rewrite Lb, Z.mod_small by lia. rewrite Nat2Z.id.
  assert (G : forall m k, (k + length m = length ns)%nat -> (forall i n, nth_error m i = Some n -> nth_error ns (k + i) = Some n) -> nodes_of P body (seq k (length m)) = Ok m).
  { induction m as [|n m IH]; intros k Lk Hk; [reflexivity|]. cbn [length seq nodes_of]. pose proof (Hk 0%nat n eq_refl) as Hn. rewrite Nat.add_0_r in Hn.
    destruct (H k n Hn) as (v & -> & w & l & pr & -> & E1 & E2 & E3 & E4). cbn [tree_of obind].
    assert (N : node_of P l = Ok (Some n)).
    { unfold node_of. rewrite E1, E2, E3. cbn [to_str obind]. destruct E4 as [(q & E4 & K) | [E4 K]]; rewrite E4; cbn [to_str obind]; [rewrite <- K|rewrite firstn_all2 by (cbn; lia); rewrite <- K]; destruct n; reflexivity. }
    rewrite N. cbn [obind]. rewrite (IH (Datatypes.S k)); [reflexivity|cbn [length] in Lk; lia|]. intros i x Hi. rewrite Nat.add_succ_l, <- Nat.add_succ_r. apply Hk. exact Hi. }
  apply (G ns 0%nat); auto.
Qed.
Example C77_lists_read_ex : describes (VTree Plain [(UStr k_node_protocol, VUshort 1); (UStr k_node_name, VStr [97; 98]); (UStr k_node_port, VStr [49; 50])]) (mkNode [42] [97; 98] [49; 50]).
Proof. do 3 eexists. split; [reflexivity|]. split; [reflexivity|]. split; [reflexivity|]. split; [reflexivity|]. right. split; reflexivity. Qed.

Print Assumptions C76_round_trip_partial.
Print Assumptions C76_sent_as_is.
Print Assumptions C76_arrives_valid_partial.
Print Assumptions C76_short_text_refuted.
Print Assumptions C76_complete.
Print Assumptions C77_well_formed_partial.
Print Assumptions C77_own_messages.
Print Assumptions C77_missing_field_refuted.
Print Assumptions C77_wrong_kind_refuted.
Print Assumptions C77_short_field_refuted.
Print Assumptions C77_no_subject_refuted.
Print Assumptions C77_attributes_size_refuted.
Print Assumptions C77_partner_refuted.
Print Assumptions C77_piggy_refuted.
Print Assumptions C77_scent_refuted.
Print Assumptions C77_lists_partial.
Print Assumptions C77_scents.
Print Assumptions C78_partner.
Print Assumptions C78_join_partial.
Print Assumptions C78_leave_partial.
Print Assumptions C78_leave_refuted.
Print Assumptions C78_join_stranger_refuted.
Print Assumptions C78_update.
Print Assumptions C78_intent.
Print Assumptions C78_handshake.
Print Assumptions C78_own_messages_act.
Print Assumptions C77_no_id_refuted.
Print Assumptions C77_lists_read.
