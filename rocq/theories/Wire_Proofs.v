(** Proofs about messages as bytes. *)
From Verif Require Import Base Dhkey_Model Rbtree_Model Tree_Model Tree_Spec Tree_Proofs Tree_Props Cbor_Model Treeval_Model Treeval_Spec Treeval_Proofs Treeval_Props
  Message_Model Message_Spec Message_Proofs Message_Props Wire_Model Wire_Spec.

(** * Numbers and pieces of memory *)
Lemma le_len n v : length (le n v) = n.
Proof. revert v. induction n; intros v; cbn [le length]; auto. Qed.
Lemma unle_le n : forall v, 0 <= v < 256 ^ Z.of_nat n -> unle (le n v) = v.
Proof.
  induction n as [|n IH]; intros v H; cbn [le unle]; [change (256 ^ Z.of_nat 0) with 1 in H; lia|].
  rewrite Nat2Z.inj_succ, Z.pow_succ_r in H by lia. rewrite IH by (split; [apply Z.div_pos; lia|apply Z.div_lt_upper_bound; lia]). rewrite (Z.div_mod v 256) at 3 by lia. lia.
Qed.
Lemma le_unle bs : Forall (fun b => 0 <= b < 256) bs -> le (length bs) (unle bs) = bs.
Proof.
  induction 1 as [|b bs Hb F IH]; cbn [le unle length]; auto. f_equal.
  - rewrite (Z.mul_comm 256), Z.mod_add by lia. apply Z.mod_small. lia.
  - rewrite (Z.mul_comm 256), Z.div_add by lia. rewrite Z.div_small by lia. exact IH.
Qed.
Lemma unle_range bs : Forall (fun b => 0 <= b < 256) bs -> 0 <= unle bs < 256 ^ Z.of_nat (length bs).
Proof.
  induction 1 as [|b bs Hb F IH]; cbn [unle length]; [change (256 ^ Z.of_nat 0) with 1; lia|]. rewrite Nat2Z.inj_succ, Z.pow_succ_r by lia. lia.
Qed.
Lemma slice_at (a b c : list Z) n m : n = length a -> m = length b -> slice (a ++ b ++ c) n m = b.
Proof. intros -> ->. unfold slice. rewrite skipn_app, Nat.sub_diag, skipn_all. cbn [app skipn]. rewrite firstn_app, Nat.sub_diag, firstn_O, firstn_all, app_nil_r. reflexivity. Qed.
Lemma slice_end (a b : list Z) n m : n = length a -> m = length b -> slice (a ++ b) n m = b.
Proof. intros H H'. rewrite <- (app_nil_r b) at 1. apply slice_at; auto. Qed.
Lemma slice_whole (a b : list Z) m : m = length a -> slice (a ++ b) 0 m = a.
Proof. intros H. apply (slice_at [] a b); auto. Qed.
Lemma words_ok k : Forall is_word k -> words (length k) (flat_map (le 4) k) = k.
Proof.
  induction 1 as [|w k Hw F IH]; cbn [length words flat_map]; auto. unfold is_word in Hw.
  rewrite firstn_app, le_len, firstn_all2, Nat.sub_diag, firstn_O, app_nil_r by (rewrite le_len; lia). rewrite unle_le by (change (256 ^ Z.of_nat 4) with 4294967296; lia).
  rewrite skipn_app, le_len, Nat.sub_diag, skipn_all2 by (rewrite le_len; lia). cbn [app skipn]. rewrite IH. reflexivity.
Qed.
Lemma dhkey_len k : wf_key k -> length (dhkey_mem k) = 32%nat.
Proof. intros [L _]. unfold dhkey_mem. do 9 (destruct k as [|? k]; try discriminate). cbn [flat_map]. rewrite !app_length, !le_len. reflexivity. Qed.

(** * The header *)
Lemma header_len f : fields_ok f -> length (header_mem f) = 96%nat.
Proof. intros (A & B & [C _] & [D _] & _). unfold header_mem. rewrite !app_length, !dhkey_len, !le_len, C, D by auto. reflexivity. Qed.
Lemma header_back f : fields_ok f -> 0 <= f_parts f < 65536 -> read_fields (header_mem f) = f.
Proof.
  intros F P. destruct F as (A & B & C & D & E & G). pose proof (dhkey_len _ A) as LA. pose proof (dhkey_len _ B) as LB. destruct C as [LC _]. destruct D as [LD _]. destruct f as [su au uu ts tl pa fl]. cbn [f_subject f_audience f_uuid f_tstamp f_ttl f_parts f_flags] in *.
  unfold read_fields, header_mem. cbn [f_subject f_audience f_uuid f_tstamp f_ttl f_parts f_flags]. f_equal.
  - rewrite slice_whole by auto. destruct A as [L8 F8]. rewrite <- L8 at 1. apply words_ok. auto.
  - rewrite slice_at by auto. destruct B as [L8 F8]. rewrite <- L8 at 1. apply words_ok. auto.
  - rewrite (app_assoc (dhkey_mem su)). apply slice_at; rewrite ?app_length; lia.
  - rewrite (app_assoc (dhkey_mem su)), (app_assoc (_ ++ _) uu). apply slice_at; rewrite ?app_length; lia.
  - rewrite (app_assoc (dhkey_mem su)), (app_assoc (_ ++ _) uu), (app_assoc _ ts). rewrite slice_at by (rewrite ?app_length, ?le_len; lia). apply unle_le. change (256 ^ Z.of_nat 4) with 4294967296. lia.
  - rewrite (app_assoc (dhkey_mem su)), (app_assoc (_ ++ _) uu), (app_assoc _ ts), (app_assoc _ (le 4 tl)). rewrite slice_at by (rewrite ?app_length, ?le_len; lia). apply unle_le. change (256 ^ Z.of_nat 2) with 65536. lia.
  - rewrite (app_assoc (dhkey_mem su)), (app_assoc (_ ++ _) uu), (app_assoc _ ts), (app_assoc _ (le 4 tl)), (app_assoc _ (le 2 pa)). rewrite slice_end by (rewrite ?app_length, ?le_len; lia). apply unle_le. change (256 ^ Z.of_nat 2) with 65536. lia.
Qed.
Lemma parts_at f : fields_ok f -> 0 <= f_parts f < 65536 -> unle (slice (header_mem f) 92 2) = f_parts f.
Proof. intros F P. change (f_parts (read_fields (header_mem f)) = f_parts f). rewrite header_back; auto. Qed.

(** * The frame *)
Section Frame.
  Variables (nonce mac h body : list Z).
  Hypotheses (Ln : length nonce = 12%nat) (Lm : length mac = 16%nat) (Lh : length h = 96%nat).
  Let b := nonce ++ mac ++ h ++ body.
  Lemma nonce_at : nonce_of b = nonce. Proof. apply slice_whole. auto. Qed.
  Lemma mac_at : mac_of b = mac. Proof. apply slice_at; auto. Qed.
  Lemma header_at : header_of b = h. Proof. unfold header_of, b. rewrite app_assoc. apply slice_at; rewrite ?app_length; lia. Qed.
  Lemma body_at : body_of b = body.
  Proof. unfold body_of, b. rewrite !app_assoc. rewrite skipn_app, skipn_all2 by (rewrite !app_length; lia). cbn [app]. replace (124 - length ((nonce ++ mac) ++ h))%nat with 0%nat by (rewrite !app_length; lia). reflexivity. Qed.
End Frame.

(** * Packets *)
Definition as_message (nonce mac h body : list Z) (n : Z) : message :=
  mkMsg (unle (firstn 2 mac)) (skipn 2 mac) (unle (firstn 2 nonce)) (skipn 2 nonce) h n body.
Lemma split2 l n : bytes n l -> (2 <= n)%nat -> le 2 (unle (firstn 2 l)) ++ skipn 2 l = l /\ 0 <= unle (firstn 2 l) < 65536 /\ length (skipn 2 l) = (n - 2)%nat.
Proof.
  intros [L F] H. destruct l as [|x [|y l]]; cbn [length] in *; try lia. inversion F as [|? ? Hx F1]; subst. inversion F1 as [|? ? Hy F2]; subst. cbn [firstn skipn]. split; [|split].
  - change (le 2 (unle [x; y])) with (le (length [x; y]) (unle [x; y])). rewrite le_unle by (repeat constructor; lia). reflexivity.
  - apply (unle_range [x; y]). repeat constructor; lia.
  - lia.
Qed.
Lemma le_unle_pre l d : firstn 2 (le 2 (u16 d) ++ l) = le 2 (u16 d).
Proof. rewrite firstn_app, le_len, Nat.sub_diag, firstn_O, app_nil_r. apply firstn_all2. rewrite le_len. lia. Qed.
Lemma skip2 l d : skipn 2 (le 2 d ++ l) = l.
Proof. rewrite skipn_app, le_len, Nat.sub_diag, skipn_all2 by (rewrite le_len; lia). reflexivity. Qed.
Lemma u16_range x : 0 <= u16 x < 256 ^ Z.of_nat 2.
Proof. unfold u16. change (256 ^ Z.of_nat 2) with 65536. apply Z.mod_pos_bound. lia. Qed.
Lemma parse_build nonce mac h body n i mac_n sq hop : bytes 12 nonce -> bytes 16 mac -> length h = 96%nat -> unle (slice h 92 2) = n -> (length body = Z.to_nat n * 900)%nat -> (i < Z.to_nat n)%nat -> length mac_n = 16%nat ->
  parse_packet (build_packet (nonce ++ mac ++ h ++ body) i mac_n sq hop) = packet_of (as_message nonce mac h body n) i.
Proof.
  intros Bn Bm Lh Hp Lb Hi Ln. unfold build_packet. rewrite mac_at, header_at, body_at, nonce_at by (try apply Bn; try apply Bm; auto). change (Z.to_nat chunk_bytes) with 900%nat.
  destruct (split2 mac 16 Bm ltac:(lia)) as (Em & Rm & Lm2). destruct (split2 nonce 12 Bn ltac:(lia)) as (En & Rn & Ln2).
  set (M := shift2 mac (Z.of_nat i)). set (N := if (0 <? i)%nat then shift2 nonce (- Z.of_nat i) else nonce). set (B := slice body (i * 900) 900).
  assert (LM : length M = 16%nat) by (unfold M, shift2; rewrite app_length, le_len; lia).
  assert (EN : N = le 2 (u16 (unle (firstn 2 nonce) - Z.of_nat i)) ++ skipn 2 nonce).
  { unfold N. destruct (Nat.ltb_spec 0 i) as [_|Z0]; [reflexivity|]. assert (i = 0%nat) as -> by lia. rewrite Z.sub_0_r, u16_id by lia. auto. }
  assert (LN : length N = 12%nat) by (rewrite EN, app_length, le_len; lia).
  assert (LB : length B = 900%nat). { unfold B, slice. rewrite firstn_length, skipn_length. nia. }
  assert (LI : length (mac_n ++ le 4 sq ++ le 2 hop) = 22%nat) by (rewrite !app_length, !le_len; lia).
  replace (mac_n ++ le 4 sq ++ le 2 hop ++ M ++ h ++ B ++ N) with ((mac_n ++ le 4 sq ++ le 2 hop) ++ M ++ h ++ B ++ N) by (rewrite <- !app_assoc; reflexivity).
  set (I := mac_n ++ le 4 sq ++ le 2 hop) in *.
  assert (PM : slice (I ++ M ++ h ++ B ++ N) 22 16 = M) by (apply slice_at; auto).
  assert (PH : slice (I ++ M ++ h ++ B ++ N) 38 96 = h) by (rewrite (app_assoc I M); apply slice_at; rewrite ?app_length; lia).
  assert (PB : slice (I ++ M ++ h ++ B ++ N) 134 900 = B) by (rewrite (app_assoc I M), (app_assoc _ h); apply slice_at; rewrite ?app_length; lia).
  assert (PN : slice (I ++ M ++ h ++ B ++ N) 1034 12 = N) by (rewrite (app_assoc I M), (app_assoc _ h), (app_assoc _ B); apply slice_end; rewrite ?app_length; lia).
  unfold parse_packet. rewrite PM, PH, PB, PN. unfold packet_of, as_message. cbn [mac16 mac_rest nonce16 nonce_rest header parts Message_Model.body]. rewrite Hp. change (Z.to_nat chunk_bytes) with 900%nat.
  f_equal.
  - unfold M, shift2. rewrite le_unle_pre. apply unle_le. apply u16_range.
  - rewrite EN, le_unle_pre. apply unle_le. apply u16_range.
  - rewrite EN. apply skip2.
Qed.
Lemma joined_message nonce mac h body n : bytes 12 nonce -> bytes 16 mac -> joined (as_message nonce mac h body n) = nonce ++ mac ++ h ++ body.
Proof.
  intros Bn Bm. unfold joined, as_message. cbn [mac16 mac_rest nonce16 nonce_rest header parts Message_Model.body]. rewrite (proj1 (split2 mac 16 Bm ltac:(lia))), (proj1 (split2 nonce 12 Bn ltac:(lia))). reflexivity.
Qed.
(** any order of the packets gives the memory back *)
Lemma packets_join nonce mac h body n ins order fuel : bytes 12 nonce -> bytes 16 mac -> length h = 96%nat -> unle (slice h 92 2) = n -> 1 <= n <= 65535 -> (length body = Z.to_nat n * 900)%nat ->
  unle (firstn 2 mac) + n <= 65536 -> (forall i, length (fst (fst (ins i))) = 16%nat) -> Permutation order (packets (nonce ++ mac ++ h ++ body) (Z.to_nat n) ins) -> n < Z.of_nat fuel ->
  exists s m, receive_all fuel None (map parse_packet order) = Ok (Some s) /\ reported_complete (Some s) = true /\ deserialize_chunks s = Ok (Some m) /\ joined m = nonce ++ mac ++ h ++ body.
Proof.
  intros Bn Bm Lh Hp Hn Lb Hw Hi P Hf. set (m := as_message nonce mac h body n).
  destruct (C32_any_order_reassembles m (map parse_packet order) fuel) as (s & R & C & D).
  - split; [exact Hn|]. split; [cbn; rewrite Lb; lia|]. split; [apply (split2 mac 16 Bm); lia|apply (split2 nonce 12 Bn); lia].
  - exact Hw.
  - apply (Permutation_map parse_packet) in P. rewrite P. unfold packets, packets_of. rewrite map_map. cbn [parts m as_message]. 
    replace (map _ (seq 0 (Z.to_nat n))) with (map (packet_of m) (seq 0 (Z.to_nat n))); [reflexivity|]. apply map_ext_in. intros i Hin. apply in_seq in Hin. specialize (Hi i). destruct (ins i) as [[mac_n sq] hop]. cbn [fst] in Hi. symmetry. apply parse_build; auto. lia.
  - exact Hf.
  - exists s, m. split; auto. split; auto. split; auto. apply joined_message; auto.
Qed.

(** * Creation *)
Lemma create_shape f t fill pad : fields_ok f -> bytes 28 fill -> 0 < np_tree_get_byte_size t <= 64800 ->
  exists n body, create f t fill pad = fill ++ header_mem (mkF (f_subject f) (f_audience f) (f_uuid f) (f_tstamp f) (f_ttl f) n (f_flags f)) ++ body /\
    1 <= n <= 72 /\ enough_pieces (np_tree_get_byte_size t) 900 n /\ (length body = Z.to_nat n * 900)%nat /\
    (forall bs, np_serializer_write_map t = Some bs -> Z.of_nat (length bs) <= np_tree_get_byte_size t -> exists padding, body = bs ++ padding).
Proof.
  intros F Bf Hs. destruct (C31_chunk_count_small (np_tree_get_byte_size t) ltac:(lia)) as [EP EL]. unfold create. set (n := calculate_chunking (binary_length (np_tree_get_byte_size t))) in *.
  rewrite EL. change fixed_header_bytes with 124. replace (n * 900 + 124 - 124) with (n * 900) by lia.
  assert (Hn : 0 <= n <= 65535). { unfold n, calculate_chunking. destruct (_ <? _); [lia|]. unfold u16. match goal with |- 0 <= ?x mod 65536 <= _ => pose proof (Z.mod_pos_bound x 65536 ltac:(lia)) end. lia. }
  assert (H1 : 1 <= n <= 72). { destruct EP as [E1 E2]. split; [lia|]. destruct (Z.le_gt_cases n 72); auto. exfalso. specialize (E2 ltac:(lia)). lia. }
  set (W := match np_serializer_write_map t with Some bs => if (length bs <=? Z.to_nat (n * 900))%nat then bs else [] | None => [] end).
  assert (LW : (length W <= Z.to_nat (n * 900))%nat) by (unfold W; destruct (np_serializer_write_map t) as [bs|]; [destruct (Nat.leb_spec (length bs) (Z.to_nat (n * 900)))|]; cbn [length]; lia).
  exists n, (W ++ map pad (seq 0 (Z.to_nat (n * 900) - length W))). split; [reflexivity|]. split; [exact H1|]. split; [exact EP|]. split.
  - rewrite app_length, map_length, seq_length. lia.
  - intros bs E Hl. unfold W. rewrite E. destruct EP as [E1 _]. assert (Le : (length bs <=? Z.to_nat (n * 900))%nat = true) by (apply Nat.leb_le; lia). rewrite Le. eauto.
Qed.

(** * Reading *)
Lemma readbody_ok nonce mac h bs padding beyond v : length nonce = 12%nat -> length mac = 16%nat -> length h = 96%nat ->
  (forall rest, np_serializer_read_map (bs ++ rest) = Some (v, rest)) -> readbody (nonce ++ mac ++ h ++ bs ++ padding) beyond = Some v.
Proof.
  intros Ln Lm Lh R. unfold readbody. rewrite body_at by auto.
  replace (firstn _ ((bs ++ padding) ++ beyond)) with (bs ++ firstn (12 + 16 + 96 + length padding) (padding ++ beyond)); [rewrite R; reflexivity|].
  rewrite <- app_assoc. rewrite !app_length, Ln, Lm, Lh. replace (12 + (16 + (96 + (length bs + length padding))))%nat with (length bs + (12 + 16 + 96 + length padding))%nat by lia. symmetry. apply firstn_app_2.
Qed.

(** * Encryption *)
Lemma seal_open seal unseal nonce f b28 body : cipher seal unseal -> bytes 12 nonce -> length b28 = 28%nat -> length f = 96%nat ->
  exists mac c, encrypt seal nonce (b28 ++ f ++ body) = nonce ++ mac ++ f ++ c /\ bytes 16 mac /\ length c = length body /\ decrypt unseal (nonce ++ mac ++ f ++ c) = Some (nonce ++ mac ++ f ++ body).
Proof.
  intros C Bn L28 Lf. unfold encrypt.
  assert (EH : header_of (b28 ++ f ++ body) = f) by (apply slice_at; auto).
  assert (EB : body_of (b28 ++ f ++ body) = body).
  { unfold body_of. rewrite app_assoc, skipn_app, skipn_all2 by (rewrite app_length; lia). rewrite app_length, L28, Lf. reflexivity. }
  rewrite EH, EB. specialize (C nonce f body). destruct (seal nonce f body) as [mac c]. destruct C as (Bm & Lc & U). exists mac, c. split; [reflexivity|]. split; [exact Bm|]. split; [exact Lc|].
  unfold decrypt. destruct Bn, Bm. rewrite nonce_at, header_at, mac_at, body_at, U by auto. reflexivity.
Qed.
Lemma first_number_at nonce mac rest : length nonce = 12%nat -> length mac = 16%nat -> first_number (nonce ++ mac ++ rest) = unle (firstn 2 mac).
Proof.
  intros Ln Lm. unfold first_number. rewrite !(app_nth2 nonce) by lia. rewrite Ln. destruct mac as [|x [|y mac]]; try discriminate. cbn [Nat.sub nth app firstn unle]. lia.
Qed.
Lemma fields_parts f n : fields_ok f -> fields_ok (with_parts f n).
Proof. unfold fields_ok, with_parts. cbn. auto. Qed.

(** a message that is sent in a session with a cipher and comes in any order *)
Lemma travel f t fill pad seal unseal nonce n ins order : fields_ok f -> bytes 28 fill -> cipher seal unseal -> bytes 12 nonce -> 0 < np_tree_get_byte_size t <= 64800 ->
  enough_pieces (np_tree_get_byte_size t) 900 n -> first_number (encrypt seal nonce (create f t fill pad)) + n <= 65536 -> (forall i, length (fst (fst (ins i))) = 16%nat) ->
  Permutation order (packets (encrypt seal nonce (create f t fill pad)) (Z.to_nat n) ins) ->
  exists mac body, received order (encrypt seal nonce (create f t fill pad)) /\
    decrypt unseal (encrypt seal nonce (create f t fill pad)) = Some (nonce ++ mac ++ header_mem (with_parts f n) ++ body) /\ length mac = 16%nat /\
    (forall bs, np_serializer_write_map t = Some bs -> Z.of_nat (length bs) <= np_tree_get_byte_size t -> exists padding, body = bs ++ padding).
Proof.
  intros F Bf C Bn Hs En Hw Hi P. destruct (create_shape f t fill pad F Bf Hs) as (n' & body & E & H1 & En' & Lb & W).
  assert (n' = n) as ->. { destruct En as [A1 A2]. destruct En' as [B1 B2]. assert (0 < n) by lia. specialize (A2 ltac:(lia)). specialize (B2 ltac:(lia)). clear - A1 A2 B1 B2. nia. }
  fold (with_parts f n) in E. pose proof (fields_parts f n F) as F'. pose proof (header_len _ F') as Lh.
  destruct (seal_open seal unseal nonce (header_mem (with_parts f n)) fill body C Bn (proj1 Bf) Lh) as (mac & c & EE & Bm & Lc & D).
  rewrite E, EE in *. exists mac, body. split; [|split; [exact D|split; [apply Bm|exact W]]].
  destruct (packets_join nonce mac (header_mem (with_parts f n)) c n ins order (Z.to_nat 100) Bn Bm Lh) as (s & m & R & Cm & Ds & J); try lia; auto.
  - apply (parts_at (with_parts f n) F'). cbn. lia.
  - rewrite first_number_at in Hw by (try apply Bn; apply Bm). exact Hw.
  - exists (Z.to_nat 100), s, m. auto.
Qed.

(** * Reading *)
Lemma write_bytes_size K h t : keys_of_kind K h -> vrun h = Ok t -> Z.of_nat (length (entries t)) <= 32767 ->
  (forall u v, In (u, v) (entries t) -> (storable_key u /\ storable v) /\ sized_key u /\ sized v) -> Z.of_nat (length (entries t)) + val_bytes (VTree Plain (entries t)) < 18446744073709551616 ->
  exists bs, np_serializer_write_map t = Some bs /\ Z.of_nat (length bs) <= np_tree_get_byte_size t /\ forall rest, np_serializer_read_map (bs ++ rest) = Some (VTree Plain (entries t), rest).
Proof.
  intros Hk Hr Hl Hs Hb. destruct (C50_tree_round_trip K h t Hk Hr Hl) as (bs & E & R); [intros u v H; apply Hs; auto|]. exists bs. split; auto. split; auto.
  apply (C19_tree_size K h t bs Hk Hr); auto. intros u v H. apply Hs; auto.
Qed.

(** * User messages *)
Lemma same_key_iff u k : same_key u k = true <-> u = UStr k.
Proof. unfold same_key. split; [destruct u as [s| | | | |]; try discriminate; destruct (list_eq_dec Z.eq_dec s k); congruence|]. intros ->. destruct (list_eq_dec Z.eq_dec k k); congruence. Qed.
Lemma entry_some k v l : NoDup (map fst l) -> In (UStr k, v) l -> entry k l = Some v.
Proof.
  induction l as [|[u w] l IH]; cbn [map fst entry]; intros N I; [destruct I|]. inversion N as [|? ? Nu N']; subst. destruct (same_key u k) eqn:E.
  - apply same_key_iff in E as ->. destruct I as [I|I]; [congruence|]. exfalso. apply Nu. apply in_map_iff. exists (UStr k, v). auto.
  - destruct I as [I|I]; [|auto]. exfalso. injection I as -> ->. rewrite (proj2 (same_key_iff (UStr k) k) eq_refl) in E. discriminate.
Qed.
Lemma entry_none k l : (forall v, ~ In (UStr k, v) l) -> entry k l = None.
Proof.
  induction l as [|[u w] l IH]; cbn [entry]; intros N; auto. destruct (same_key u k) eqn:E; [|apply IH; intros v H; apply (N v); right; auto].
  apply same_key_iff in E as ->. exfalso. apply (N w). left. auto.
Qed.
Definition user_history (payload attributes : list Z) : list (op (V := tval)) :=
  Insert (UStr USERDATA) (VBin payload) :: if (0 <? length attributes)%nat then [Insert (UStr ATTRIBUTES) (VBin attributes)] else [].
Definition user_entries (payload attributes : list Z) : list (ukey * tval) :=
  (UStr USERDATA, VBin payload) :: if (0 <? length attributes)%nat then [(UStr ATTRIBUTES, VBin attributes)] else [].
Lemma user_kind payload attributes : keys_of_kind Strings (user_history payload attributes).
Proof.
  unfold user_history. constructor; [intros u [= <-]; cbn [of_kind]; split; [unfold USERDATA; repeat constructor; lia|cbn; lia]|].
  destruct (0 <? length attributes)%nat; constructor; [|constructor]. intros u [= <-]. cbn [of_kind]. split; [unfold ATTRIBUTES; repeat constructor; lia|cbn; lia].
Qed.
Lemma user_bindings payload attributes u v : bindings (user_history payload attributes) no_bindings u = Some v <-> In (u, v) (user_entries payload attributes).
Proof.
  unfold user_history, user_entries. destruct (0 <? length attributes)%nat; cbn [bindings change].
  - destruct (ukey_eq_dec u (UStr ATTRIBUTES)) as [->|N1].
    + destruct (ukey_eq_dec (UStr ATTRIBUTES) (UStr USERDATA)) as [E|_]; [discriminate E|]. cbn [no_bindings]. split; [intros [= <-]; right; left; auto|intros [H|[H|[]]]; [discriminate H|congruence]].
    + destruct (ukey_eq_dec u (UStr USERDATA)) as [->|N2]; cbn [no_bindings].
      * split; [intros [= <-]; left; auto|intros [H|[H|[]]]; congruence].
      * split; [discriminate|intros [H|[H|[]]]; congruence].
  - destruct (ukey_eq_dec u (UStr USERDATA)) as [->|N2]; cbn [no_bindings]; (split; [intros; try discriminate; left; congruence|intros [H|[]]; congruence]).
Qed.
Lemma user_tree payload attributes : Z.of_nat (length payload) + Z.of_nat (length attributes) <= 64764 ->
  exists t, user_body payload attributes = Ok t /\ Permutation (entries t) (user_entries payload attributes) /\ NoDup (map fst (entries t)) /\ 0 < np_tree_get_byte_size t <= 64800.
Proof.
  intros Hl. destruct (C18_map (VOther 0) stored_bytes val_bytes _ _ (user_kind payload attributes)) as (t & Er & _ & He & Nd & Ec & Eb). exists t. split; [exact Er|].
  assert (P : Permutation (entries t) (user_entries payload attributes)).
  { apply NoDup_Permutation.
    - clear - Nd. induction (entries t) as [|e l IH]; constructor; inversion Nd; subst; auto. intros H. apply H1. apply in_map. auto.
    - unfold user_entries. destruct (0 <? length attributes)%nat; repeat constructor; cbn; intuition discriminate.
    - intros [u v]. rewrite He. apply user_bindings. }
  split; [exact P|]. split; [exact Nd|].
  unfold np_tree_get_byte_size. rewrite Ec, Eb.
  assert (ES : forall l l', Permutation l l' -> fold_right (fun (e : ukey * tval) s => stored_bytes (stored_key (fst e)) + val_bytes (snd e) + s) 0 l = fold_right (fun e s => stored_bytes (stored_key (fst e)) + val_bytes (snd e) + s) 0 l').
  { induction 1; cbn [fold_right]; lia. }
  rewrite (ES _ _ P), (Permutation_length P). unfold user_entries.
  assert (KU : stored_bytes (stored_key (UStr USERDATA)) = 12) by reflexivity. assert (KA : stored_bytes (stored_key (UStr ATTRIBUTES)) = 14) by reflexivity.
  assert (VB : forall b, Z.of_nat (length b) <= 64766 -> Z.of_nat (length b) + 1 <= val_bytes (VBin b) <= Z.of_nat (length b) + 3).
  { intros b Hb. cbn [val_bytes]. unfold extra32, extra16, extra8. destruct (Z.gtb_spec (Z.of_nat (length b)) 65535), (Z.gtb_spec (Z.of_nat (length b)) 255), (Z.geb_spec (Z.of_nat (length b)) 24); lia. }
  pose proof (VB payload ltac:(lia)). pose proof (VB attributes ltac:(lia)).
  destruct (0 <? length attributes)%nat; cbn [fold_right fst snd length]; rewrite KU, ?KA;
   [change (extra64 (u64 (Z.of_nat 2))) with 0|change (extra64 (u64 (Z.of_nat 1))) with 0]; unfold u64; rewrite Z.mod_small by lia; lia.
Qed.
