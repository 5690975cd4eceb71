(** C33: messages and user data survive the way through packets.  C54: what a stranger's first packet can do. *)
From Verif Require Import Base Dhkey_Model Rbtree_Model Tree_Model Tree_Spec Tree_Proofs Tree_Props Cbor_Model Treeval_Model Treeval_Spec Treeval_Proofs Treeval_Props
  Message_Model Message_Spec Message_Proofs Message_Props Wire_Model Wire_Spec Wire_Proofs.
From Verif Require Data_Model.

(** ** C33 *)
(** A message with any header fields and any body (a tree of values that can be stored and whose size is calculated large
    enough, up to 72 packets), encrypted and sent as packets that arrive in any order: it is complete, it decrypts, and the
    receiver reads the header fields and the entries of the tree.  Missing: messages whose packet numbers run over the
    two byte counter (C32_id_wrap_refuted), larger bodies (C31_chunk_count_large_refuted). *)
Theorem C33_round_trip_partial : forall K h t f fill pad seal unseal nonce n ins order beyond,
  keys_of_kind K h -> vrun h = Ok t -> Z.of_nat (length (entries t)) <= 32767 ->
  (forall u v, In (u, v) (entries t) -> (storable_key u /\ storable v) /\ sized_key u /\ sized v) ->
  Z.of_nat (length (entries t)) + val_bytes (VTree Plain (entries t)) < 18446744073709551616 -> 0 < np_tree_get_byte_size t <= 64800 ->
  fields_ok f -> bytes 28 fill -> cipher seal unseal -> bytes 12 nonce ->
  enough_pieces (np_tree_get_byte_size t) 900 n -> (forall i, length (fst (fst (ins i))) = 16%nat) ->
  let b := encrypt seal nonce (create f t fill pad) in
  first_number b + n <= 65536 -> Permutation order (packets b (Z.to_nat n) ins) ->
  received order b /\ exists p, decrypt unseal b = Some p /\ read_fields (header_of p) = with_parts f n /\ readbody p beyond = Some (VTree Plain (entries t)).
Proof.
  intros K h t f fill pad seal unseal nonce n ins order beyond Hk Hr Hl Hs Hb Hz F Bf C Bn En Hi b Hw P.
  destruct (travel f t fill pad seal unseal nonce n ins order F Bf C Bn Hz En Hw Hi P) as (mac & body & R & D & Lm & W). split; [exact R|].
  destruct (write_bytes_size K h t Hk Hr Hl Hs Hb) as (bs & E & L & Rd). destruct (W bs E L) as (padding & ->).
  pose proof (fields_parts f n F) as F'. pose proof (header_len _ F') as Lh. destruct Bn as [Ln _].
  exists (nonce ++ mac ++ header_mem (with_parts f n) ++ bs ++ padding). split; [exact D|]. split.
  - rewrite header_at by auto. apply header_back; auto. cbn [f_parts with_parts]. destruct En as [E1 E2]. split; [lia|]. assert (0 < n) by lia. specialize (E2 ltac:(lia)). lia.
  - apply readbody_ok; auto.
Qed.

(** What a user hands to np_send (with attributes) is what the callback at the receiver gets: the payload byte for byte,
    the subject, the uuid, the attributes followed by zeros (without attributes: an empty data block). *)
Theorem C33_delivery_partial : forall payload attributes f fill pad seal unseal nonce ins beyond,
  Z.of_nat (length payload) + Z.of_nat (length attributes) <= 64764 -> (length attributes <= Z.to_nat 10240)%nat ->
  fields_ok f -> bytes 28 fill -> cipher seal unseal -> bytes 12 nonce -> (forall i, length (fst (fst (ins i))) = 16%nat) ->
  exists t n attr, user_body payload attributes = Ok t /\ 1 <= n <= 72 /\ enough_pieces (np_tree_get_byte_size t) 900 n /\
    (if (0 <? length attributes)%nat then attr = attributes ++ repeat 0 (Z.to_nat 10240 - length attributes)
     else exists r, Data_Model.np_init_datablock (repeat 0 (Z.to_nat 10240)) 10240 = Data_Model.Done (r, attr)) /\
    let b := encrypt seal nonce (create f t fill pad) in
    first_number b + n <= 65536 -> forall order, Permutation order (packets b (Z.to_nat n) ins) ->
    received order b /\ deliver unseal b beyond = Ok (Some (mkU (f_uuid f) (f_subject f) payload attr)).
Proof.
  intros payload attributes f fill pad seal unseal nonce ins beyond Hl Ha F Bf C Bn Hi.
  destruct (user_tree payload attributes Hl) as (t & Et & P & Nd & Hz).
  assert (Hn : exists n, 1 <= n <= 72 /\ enough_pieces (np_tree_get_byte_size t) 900 n).
  { destruct (create_shape f t fill pad F Bf Hz) as (n & _ & _ & H1 & En & _). eauto. }
  destruct Hn as (n & H1 & En).
  assert (HI : forall u v, In (u, v) (entries t) -> (storable_key u /\ storable v) /\ sized_key u /\ sized v).
  { intros u v H. apply (Permutation_in _ P) in H. unfold user_entries in H.
    assert (KS : forall b, (b = payload \/ b = attributes) -> storable (VBin b) /\ sized (VBin b)) by (intros b [->| ->]; split; constructor; lia).
    destruct H as [H|H]; [injection H as <- <-|destruct (0 <? length attributes)%nat; [destruct H as [H|[]]; injection H as <- <-|destruct H]].
    - split; split; [cbn; repeat split; try lia; unfold USERDATA; repeat constructor; lia|apply KS; auto|constructor|apply KS; auto].
    - split; split; [cbn; repeat split; try lia; unfold ATTRIBUTES; repeat constructor; lia|apply KS; auto|constructor|apply KS; auto]. }
  assert (Ln : (length (entries t) <= 2)%nat) by (rewrite (Permutation_length P); unfold user_entries; destruct (0 <? length attributes)%nat; cbn; lia).
  assert (Hb : Z.of_nat (length (entries t)) + val_bytes (VTree Plain (entries t)) < 18446744073709551616).
  { cbn [val_bytes]. replace (extra64 (Z.of_nat (length (entries t)))) with 0 by (destruct (entries t) as [|? [|? [|? ?]]]; [reflexivity|reflexivity|reflexivity|cbn in Ln; lia]).
    assert (SP : forall l l', Permutation l l' -> sum_sizes (fun e : ukey * tval => key_bytes (fst e) + val_bytes (snd e)) l = sum_sizes (fun e => key_bytes (fst e) + val_bytes (snd e)) l') by (unfold sum_sizes; induction 1; cbn [fold_right]; lia).
    rewrite (SP _ _ P). unfold user_entries, sum_sizes.
    assert (VB : forall b, Z.of_nat (length b) <= 64764 -> val_bytes (VBin b) <= 64800).
    { intros b Hb'. cbn [val_bytes]. unfold extra32, extra16, extra8. destruct (Z.gtb_spec (Z.of_nat (length b)) 65535), (Z.gtb_spec (Z.of_nat (length b)) 255), (Z.geb_spec (Z.of_nat (length b)) 24); lia. }
    pose proof (VB payload ltac:(lia)). pose proof (VB attributes ltac:(lia)).
    destruct (0 <? length attributes)%nat; cbn [fold_right fst snd]; change (key_bytes (UStr USERDATA)) with 12; try change (key_bytes (UStr ATTRIBUTES)) with 14; lia. }
  assert (HA : exists attr, (if (0 <? length attributes)%nat then attr = attributes ++ repeat 0 (Z.to_nat 10240 - length attributes)
     else exists r, Data_Model.np_init_datablock (repeat 0 (Z.to_nat 10240)) 10240 = Data_Model.Done (r, attr))).
  { destruct (0 <? length attributes)%nat; [eauto|]. unfold Data_Model.np_init_datablock. rewrite repeat_length. rewrite Z2Nat.id by lia. change (10240 >? 10240) with false. cbn iota. destruct (Data_Model.write_header _ _) as [r attr]. eauto. }
  destruct HA as (attr & HA). exists t, n, attr. split; [exact Et|]. split; [exact H1|]. split; [exact En|]. split; [exact HA|]. intros b Hw order Po.
  destruct (C33_round_trip_partial Strings (user_history payload attributes) t f fill pad seal unseal nonce n ins order beyond) as (R & p & D & Ef & Er); auto; try apply user_kind; try lia.
  split; [exact R|]. unfold deliver. unfold b in *. rewrite D, Er. unfold callback. rewrite Ef. cbn [f_uuid f_subject with_parts].
  assert (EU : entry USERDATA (entries t) = Some (VBin payload)) by (apply entry_some; auto; apply (Permutation_in _ (Permutation_sym P)); left; auto).
  rewrite EU. cbn [memory_of obind]. fold (zeros (Z.to_nat 10240)) in HA. fold NP_EXTENSION_BYTES in HA, Ha.
  destruct (Nat.ltb_spec 0 (length attributes)) as [Hp|H0].
  - assert (EA : entry ATTRIBUTES (entries t) = Some (VBin attributes)).
    { apply entry_some; auto. apply (Permutation_in _ (Permutation_sym P)). unfold user_entries. rewrite (proj2 (Nat.ltb_lt _ _) Hp). right. left. auto. }
    rewrite EA. cbn [memory_of obind]. rewrite (proj2 (Nat.leb_le _ _) Ha). cbn [obind]. rewrite HA. reflexivity.
  - assert (EA : entry ATTRIBUTES (entries t) = None).
    { apply entry_none. intros v H. apply (Permutation_in _ P) in H. unfold user_entries in H. replace (0 <? length attributes)%nat with false in H by (symmetry; apply Nat.ltb_ge; auto). destruct H as [H|[]]. discriminate H. }
    rewrite EA. destruct HA as (r & HA). rewrite HA. reflexivity.
Qed.

(** a payload and attributes, two packets: a null cipher, some header fields *)
Definition nseal (nonce h p : list Z) : list Z * list Z := (repeat 9 16, p).
Definition nunseal (nonce h mac c : list Z) : option (list Z) := Some c.
Definition some_fields : fields := mkF (repeat 1 8) (repeat 2 8) (repeat 3 16) (repeat 4 8) 20 0 5.
Definition some_ins : instructions := fun i => (repeat 6 16, Z.of_nat i, 1).
Example C33_hypotheses_ex : cipher nseal nunseal /\ fields_ok some_fields /\ bytes 28 (repeat 0 28) /\ bytes 12 (repeat 8 12) /\ (forall i, length (fst (fst (some_ins i))) = 16%nat) /\
  (forall p, first_number (encrypt nseal (repeat 8 12) p) + 72 <= 65536).
Proof.
  split; [|split; [|split; [|split; [|split]]]].
  - intros nonce h p. cbn. repeat split; auto. repeat constructor; lia.
  - unfold fields_ok, wf_key, some_fields, bytes. cbn [f_subject f_audience f_uuid f_tstamp f_ttl f_flags]. repeat match goal with |- _ /\ _ => split end; try reflexivity; try lia; apply Forall_forall; intros x Hx; apply repeat_spec in Hx; subst x; unfold is_word; lia.
  - split; [reflexivity|]. apply Forall_forall. intros x Hx. apply repeat_spec in Hx. lia.
  - split; [reflexivity|]. apply Forall_forall. intros x Hx. apply repeat_spec in Hx. lia.
  - intros i. reflexivity.
  - intros p. unfold first_number, encrypt, nseal. cbn [repeat app nth]. lia.
Qed.
Example C33_delivery_ex : forall pad, exists t n attr, user_body (repeat 77 1000) [10; 20] = Ok t /\ firstn 3 attr = [10; 20; 0] /\
  let b := encrypt nseal (repeat 8 12) (create some_fields t (repeat 0 28) pad) in
  received (rev (packets b (Z.to_nat n) some_ins)) b /\ deliver nunseal b [] = Ok (Some (mkU (repeat 3 16) (repeat 1 8) (repeat 77 1000) attr)).
Proof.
  intros pad. destruct C33_hypotheses_ex as (C & F & Bf & Bn & Hi & Hw).
  destruct (C33_delivery_partial (repeat 77 1000) [10; 20] some_fields (repeat 0 28) pad nseal nunseal (repeat 8 12) some_ins []) as (t & n & attr & Et & Hn & _ & Ha & D); auto.
  - rewrite repeat_length. cbn [length]. lia.
  - cbn [length]. lia.
  - exists t, n, attr. split; [exact Et|]. split.
    + change (0 <? length [10; 20])%nat with true in Ha. cbn iota in Ha. rewrite Ha. cbn [app length]. destruct (Z.to_nat 10240 - 2)%nat eqn:E; [lia|]. reflexivity.
    + cbv zeta in D |- *. specialize (Hw (create some_fields t (repeat 0 28) pad)). destruct (D ltac:(lia) (rev (packets (encrypt nseal (repeat 8 12) (create some_fields t (repeat 0 28) pad)) (Z.to_nat n) some_ins))) as [R Dl]; [apply Permutation_sym; apply Permutation_rev|]. split; [exact R|exact Dl].
Qed.

(** A tree whose size comes out too small (an unsigned int from 32768 on, C19_uint_refuted) and that fills a packet: the
    message holds random bytes only, and nobody is told (np_message.c:643-660). *)
Definition full : list (op (V := tval)) := [Insert (UStr [110; 117; 109]) (VUint 40000); Insert (UStr [98; 105; 110]) (VBin (repeat 7 881))].
Theorem C33_unfit_refuted : exists t, vrun full = Ok t /\ keys_of_kind Strings full /\ (forall u v, In (u, v) (entries t) -> storable_key u /\ storable v) /\
  forall f fill pad, fields_ok f -> length fill = 28%nat -> body_of (create f t fill pad) = map pad (seq 0 900).
Proof.
  assert (Hk : keys_of_kind Strings full).
  { unfold full. repeat constructor; intros u H; injection H as <-; cbn [of_kind]; (split; [repeat constructor; lia|cbn; lia]). }
  destruct (C18_map (VOther 0) stored_bytes val_bytes Strings full Hk) as (t & Er & _ & He & _). exists t. split; [exact Er|]. split; [exact Hk|]. split.
  - intros u v H. apply He in H. unfold full in H. cbn [bindings change] in H. destruct (ukey_eq_dec u (UStr [98; 105; 110])) as [->|N1].
    + destruct (ukey_eq_dec (UStr [98; 105; 110]) (UStr [110; 117; 109])) as [E|_]; [discriminate E|]. unfold no_bindings in H. apply (f_equal (fun o => match o with Some x => x | None => v end)) in H. cbn beta iota in H. subst v.
      split; [split; [discriminate|split; [cbn; lia|repeat (apply Forall_cons; [lia|]); apply Forall_nil]]|constructor; rewrite repeat_length; lia].
    + destruct (ukey_eq_dec u (UStr [110; 117; 109])) as [->|N2]; [|discriminate H]. unfold no_bindings in H. apply (f_equal (fun o => match o with Some x => x | None => v end)) in H. cbn beta iota in H. subst v.
      split; [split; [discriminate|split; [cbn; lia|repeat (apply Forall_cons; [lia|]); apply Forall_nil]]|constructor; lia].
  - intros f fill pad F Lf.
    assert (T : match vrun full with Ok t => Some (np_tree_get_byte_size t, option_map (@length Z) (np_serializer_write_map t)) | _ => None end = Some (900, Some 902%nat)) by (vm_compute; reflexivity).
    unfold vrun in T. rewrite Er in T. injection T as Ez Ew. unfold create. rewrite Ez. change (binary_length 900) with 1024. change (calculate_chunking 1024) with 1. change (Z.to_nat (1024 - fixed_header_bytes)) with 900%nat.
    destruct (np_serializer_write_map t) as [bs|]; [|discriminate Ew]. cbn [option_map] in Ew. injection Ew as Ew. rewrite Ew. change (902 <=? 900)%nat with false. cbn iota. cbn [app length]. change (900 - 0)%nat with 900%nat.
    unfold body_of. pose proof (header_len _ (fields_parts f 1 F)) as Lh. unfold with_parts in Lh. rewrite app_assoc, skipn_app, skipn_all2 by (rewrite app_length; lia). rewrite app_length, Lf, Lh. reflexivity.
Qed.

(** The decoder is given 124 bytes too many: a peer's message whose last value claims to be longer than the message is
    read from the memory behind it (np_message.c:552-556). *)
Definition long_claim : list Z := repeat 0 124 ++ ([217; 122; 203; 161; 107] ++ USERDATA ++ [89; 3; 163]) ++ repeat 7 881.
Theorem C33_overread_refuted : exists b, length b = 1024%nat /\ forall x y, length x = 50%nat -> length y = 50%nat -> x <> y -> readbody b x <> readbody b y.
Proof.
  exists long_claim. split; [reflexivity|]. intros x y Lx Ly N E. apply N.
  assert (R : forall z, length z = 50%nat -> readbody long_claim z = Some (VTree Plain [(UStr USERDATA, VBin (repeat 7 881 ++ z))])).
  { intros z Lz. do 50 (destruct z as [|? z]; [discriminate Lz|]). destruct z; [|discriminate Lz]. vm_compute. reflexivity. }
  rewrite !R in E by auto. injection E as E. exact E.
Qed.

(** The type of the user data is not looked at: a peer that sends a number makes the receiver copy from it
    (neuropil.c:751-766). *)
Theorem C33_type_refuted : forall b v rest, entry USERDATA ((UStr USERDATA, VUlong v) :: rest) = Some (VUlong v) /\ callback b ((UStr USERDATA, VUlong v) :: rest) = UB.
Proof. intros b v rest. split; reflexivity. Qed.

(** ** C54 *)
Lemma header_of_packet d : pheader (parse_packet d) = slice d 38 96. Proof. reflexivity. Qed.
(** A datagram that is not a handshake is ignored here; a handshake of one part is read or refused. *)
Theorem C54_first_packet_partial : forall subject d beyond,
  words 8 (slice d 38 32) <> subject \/ nth 130 d 0 + 256 * nth 131 d 0 = 1 -> length d = 1046%nat -> exists r, extract_handshake subject d beyond = Ok r.
Proof.
  intros subject d beyond H L. unfold extract_handshake. rewrite header_of_packet.
  assert (S1 : slice (slice d 38 96) 0 32 = slice d 38 32) by (unfold slice; cbn [skipn]; rewrite firstn_firstn; reflexivity). rewrite S1.
  destruct (list_eq_dec Z.eq_dec (words 8 (slice d 38 32)) subject) as [E|N]; [|eauto]. destruct H as [H|H]; [contradiction|].
  assert (S2 : pparts (parse_packet d) = 1).
  { unfold parse_packet. cbn [pparts]. rewrite <- H. unfold slice. do 132 (destruct d as [|? d]; [discriminate L|]). cbn [skipn firstn unle nth]. lia. }
  unfold first_chunk. rewrite S2. change (1 =? 0) with false. cbn iota. cbn [obind]. unfold deserialize_chunks. cbn [slots]. rewrite S2. change (1 =? 0) with false. change (Z.to_nat 1 - 1)%nat with 0%nat. cbn [repeat length]. change (Z.of_nat 1 <? 1) with false. cbn iota. change (Z.to_nat 1) with 1%nat. cbn [firstn bodies option_map obind]. eauto.
Qed.
(** Every other number of parts in a handshake stops the node: memory is written that was not allocated, or an assertion
    fails.  Nothing in the datagram is authenticated at this point. *)
Theorem C54_parts_refuted : forall subject d beyond, words 8 (slice d 38 32) = subject -> length d = 1046%nat -> Forall (fun b => 0 <= b < 256) d ->
  nth 130 d 0 + 256 * nth 131 d 0 <> 1 -> extract_handshake subject d beyond = UB \/ extract_handshake subject d beyond = Abort.
Proof.
  intros subject d beyond E L Fd H. unfold extract_handshake. rewrite header_of_packet.
  assert (S1 : slice (slice d 38 96) 0 32 = slice d 38 32) by (unfold slice; cbn [skipn]; rewrite firstn_firstn; reflexivity). rewrite S1.
  destruct (list_eq_dec Z.eq_dec (words 8 (slice d 38 32)) subject) as [_|N]; [|contradiction].
  assert (S2 : pparts (parse_packet d) = nth 130 d 0 + 256 * nth 131 d 0).
  { unfold parse_packet. cbn [pparts]. unfold slice. clear - L. do 132 (destruct d as [|? d]; [discriminate L|]). cbn [skipn firstn unle nth]. lia. }
  assert (S3 : 0 <= pparts (parse_packet d)).
  { rewrite S2. rewrite Forall_forall in Fd. pose proof (Fd (nth 130 d 0) ltac:(apply nth_In; lia)). pose proof (Fd (nth 131 d 0) ltac:(apply nth_In; lia)). lia. }
  rewrite <- S2 in H. set (p := parse_packet d) in *. unfold first_chunk. destruct (Z.eqb_spec (pparts p) 0) as [Z0|NZ]; [left; reflexivity|]. right. cbn [obind]. unfold deserialize_chunks. cbn [slots].
  destruct (Z.eqb_spec (pparts p) 0) as [Z0|_]; [contradiction|]. cbn [length]. rewrite repeat_length.
  replace (Z.of_nat (S (Z.to_nat (pparts p) - 1)) <? pparts p) with false by (symmetry; apply Z.ltb_ge; lia). cbn [obind].
  destruct (Z.to_nat (pparts p)) as [|[|k]] eqn:Ek; try lia. cbn [Nat.sub repeat firstn bodies option_map]. reflexivity.
Qed.
Example C54_ex : exists d, length d = 1046%nat /\ nth 130 d 0 + 256 * nth 131 d 0 = 1 /\
  extract_handshake (repeat 0 8) d [] = Ok (Some (VTree Plain [(UStr [105; 100], VBin [1; 2])])).
Proof. exists (repeat 0 130 ++ [1; 0; 0; 0] ++ [217; 122; 203; 161; 98; 105; 100; 66; 1; 2] ++ repeat 0 902). vm_compute. auto. Qed.
Example C54_parts_ex : forall n, 0 <= n < 256 -> exists d, length d = 1046%nat /\ Forall (fun b => 0 <= b < 256) d /\ words 8 (slice d 38 32) = repeat 0 8 /\ nth 130 d 0 + 256 * nth 131 d 0 = n.
Proof.
  intros n Hn. exists (repeat 0 130 ++ n :: repeat 0 915). split; [reflexivity|]. split; [|split; [reflexivity|cbn [repeat app nth]; lia]].
  apply Forall_app. split; [|constructor; [lia|]]; apply Forall_forall; intros x Hx; apply repeat_spec in Hx; lia.
Qed.

Print Assumptions C33_round_trip_partial.
Print Assumptions C33_delivery_partial.
Print Assumptions C33_unfit_refuted.
Print Assumptions C33_overread_refuted.
Print Assumptions C33_type_refuted.
Print Assumptions C54_first_packet_partial.
Print Assumptions C54_parts_refuted.
