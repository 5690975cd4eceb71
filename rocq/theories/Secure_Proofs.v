From Verif Require Import Base Dhkey_Model Rbtree_Model Tree_Model Cbor_Model Treeval_Model Message_Model Message_Spec Message_Proofs Wire_Model Wire_Spec Wire_Proofs Secure_Model Secure_Spec.

Lemma slice_length (l : list Z) n m : (n + m <= length l)%nat -> length (slice l n m) = m.
Proof. intros H. unfold slice. rewrite firstn_length, skipn_length. lia. Qed.
Lemma skipn_split (l : list Z) n m : skipn n l = slice l n m ++ skipn (n + m) l.
Proof.
  unfold slice. rewrite <- (firstn_skipn m (skipn n l)) at 1. f_equal.
  revert l. induction n as [|n IH]; intros l; cbn [Nat.add]; [reflexivity|]. destruct l as [|a l]; [now rewrite !skipn_nil|]. cbn [skipn]. apply IH.
Qed.
Lemma skipn_exact (a b : list Z) n : n = length a -> skipn n (a ++ b) = b.
Proof. intros ->. rewrite skipn_app, skipn_all, Nat.sub_diag. reflexivity. Qed.
Lemma skipn2 n m (l : list Z) : skipn n (skipn m l) = skipn (m + n) l.
Proof. revert l. induction m as [|m IH]; intros l; [reflexivity|]. destruct l; [now rewrite !skipn_nil|]. apply IH. Qed.
Lemma whole (d : list Z) : datagram d -> d = d_mac d ++ d_sealed d ++ d_nonce d.
Proof.
  intros H. unfold d_mac, d_sealed, d_nonce. change d with (skipn 0 d) at 1. rewrite (skipn_split d 0 16). f_equal. cbn [Nat.add].
  rewrite (skipn_split d 16 1018). f_equal. change (16 + 1018)%nat with 1034%nat. unfold datagram in H. unfold slice.
  rewrite firstn_all2; [reflexivity|]. rewrite skipn_length. lia.
Qed.
Lemma parts3 (a b c : list Z) : length a = 16%nat -> length b = 1018%nat -> length c = 12%nat ->
  d_mac (a ++ b ++ c) = a /\ d_sealed (a ++ b ++ c) = b /\ d_nonce (a ++ b ++ c) = c /\ datagram (a ++ b ++ c).
Proof.
  intros A B C. unfold d_mac, d_sealed, d_nonce, datagram. split; [|split; [|split]].
  - apply slice_whole. lia.
  - apply slice_at; lia.
  - rewrite app_assoc. apply slice_end; rewrite ?app_length; lia.
  - rewrite !app_length. lia.
Qed.
Lemma lens d : datagram d -> length (d_mac d) = 16%nat /\ length (d_sealed d) = 1018%nat /\ length (d_nonce d) = 12%nat.
Proof. unfold datagram. intros H. unfold d_mac, d_sealed, d_nonce. rewrite !slice_length by lia. auto. Qed.

Lemma set_len d sq hop : datagram d -> datagram (set_instructions d sq hop).
Proof. unfold datagram. intros H. unfold set_instructions. rewrite !app_length, !le_len, slice_length, skipn_length by lia. lia. Qed.
Lemma content_set d sq hop : datagram d -> content (set_instructions d sq hop) = content d.
Proof.
  unfold datagram. intros H. unfold content, set_instructions. rewrite !app_assoc.
  assert (L : length ((slice d 0 16 ++ le 4 sq) ++ le 2 hop) = 22%nat) by (rewrite !app_length, !le_len, slice_length by lia; lia).
  apply skipn_exact. lia.
Qed.
Lemma content_mac (mac d : list Z) : length mac = 16%nat -> content (mac ++ skipn 16 d) = content d.
Proof.
  intros L. unfold content. change 22%nat with (16 + 6)%nat at 1. rewrite <- skipn2. rewrite skipn_exact by lia. apply skipn2.
Qed.
(** fields behind the instructions depend on the content only *)
Lemma slice_content d n m : (22 <= n)%nat -> slice d n m = slice (content d) (n - 22) m.
Proof.
  intros H. unfold slice, content. f_equal.
  rewrite skipn2. f_equal. lia.
Qed.
Lemma parse_content d d' : content d = content d' -> parse_packet d = parse_packet d'.
Proof. intros E. unfold parse_packet. rewrite !(slice_content d) by lia. rewrite !(slice_content d') by lia. now rewrite E. Qed.
Lemma tstamp_content d d' : content d = content d' -> d_tstamp d = d_tstamp d' /\ d_ttl d = d_ttl d'.
Proof. intros E. unfold d_tstamp, d_ttl. rewrite !(slice_content d) by lia. rewrite !(slice_content d') by lia. now rewrite E. Qed.
Lemma nonce_content d d' : content d = content d' -> d_nonce d = d_nonce d'.
Proof. intros E. unfold d_nonce. rewrite !(slice_content d) by lia. rewrite !(slice_content d') by lia. now rewrite E. Qed.

Lemma instr_back (mac d : list Z) sq hop : datagram d -> length mac = 16%nat -> 0 <= sq < 4294967296 -> 0 <= hop < 65536 ->
  let r := mac ++ skipn 16 (set_instructions d sq hop) in datagram r /\ unle (slice r 16 4) = sq /\ d_hop r = hop /\ content r = content d.
Proof.
  intros H L S P r. pose proof (set_len d sq hop H) as H'.
  assert (E : r = mac ++ le 4 sq ++ le 2 hop ++ content d).
  { unfold r, set_instructions. f_equal. assert (L16 : length (slice d 0 16) = 16%nat) by (unfold datagram in H; apply slice_length; lia).
    apply skipn_exact. lia. }
  assert (Lc : length (content d) = 1024%nat) by (unfold content, datagram in *; rewrite skipn_length; lia).
  split; [|split; [|split]].
  - rewrite E. unfold datagram. rewrite !app_length, !le_len. lia.
  - rewrite E, slice_at by (rewrite ?le_len; lia). apply unle_le. change (256 ^ Z.of_nat 4) with 4294967296. lia.
  - unfold d_hop. rewrite E, app_assoc, slice_at by (rewrite ?app_length, ?le_len; lia). apply unle_le. change (256 ^ Z.of_nat 2) with 65536. lia.
  - unfold r. rewrite content_mac by auto. apply content_set; auto.
Qed.

(** instructions in front of a content *)
Definition formed (d c : list Z) : Prop := exists mac sq hop, length mac = 16%nat /\ d = mac ++ le 4 sq ++ le 2 hop ++ c.
Lemma le_bytes n : forall v, Forall (fun b => 0 <= b < 256) (le n v).
Proof. induction n as [|n IH]; intros v; cbn [le]; constructor; auto. apply Z.mod_pos_bound. lia. Qed.
Lemma formed_back d c : formed d c -> d = slice d 0 16 ++ le 4 (unle (slice d 16 4)) ++ le 2 (d_hop d) ++ c.
Proof.
  intros (mac & sq & hop & L & E).
  assert (E1 : slice d 0 16 = mac) by (rewrite E; apply slice_whole; lia).
  assert (E2 : slice d 16 4 = le 4 sq) by (rewrite E; apply slice_at; rewrite ?le_len; lia).
  assert (E3 : slice d 20 2 = le 2 hop) by (rewrite E, app_assoc; apply slice_at; rewrite ?app_length, ?le_len; lia).
  unfold d_hop. rewrite E1, E2, E3, E.
  pose proof (le_unle _ (le_bytes 4 sq)) as Q4. rewrite le_len in Q4. rewrite Q4.
  pose proof (le_unle _ (le_bytes 2 hop)) as Q2. rewrite le_len in Q2. now rewrite Q2.
Qed.
Lemma formed_set (mac d : list Z) sq hop : datagram d -> length mac = 16%nat -> formed (mac ++ skipn 16 (set_instructions d sq hop)) (content d).
Proof.
  intros H L. exists mac, sq, hop. split; [exact L|]. f_equal. unfold set_instructions. apply skipn_exact. unfold datagram in H. rewrite slice_length; lia.
Qed.

Lemma hop_range d : datagram d -> Forall (fun b => 0 <= b < 256) (slice d 20 2) -> 0 <= d_hop d < 65536.
Proof.
  intros H F. unfold d_hop. pose proof (unle_range _ F) as Q. unfold datagram in H. rewrite slice_length in Q by lia. change (256 ^ Z.of_nat 2) with 65536 in Q. lia.
Qed.
Lemma forward_ok d : datagram d -> 0 <= d_hop d < 65536 -> datagram (forward d) /\ content (forward d) = content d /\ d_hop (forward d) = u16 (d_hop d + 1).
Proof.
  intros H P. unfold forward. split; [apply set_len; auto|]. split; [apply content_set; auto|].
  set (sq := unle (slice d 16 4)). unfold d_hop at 1. unfold set_instructions. rewrite app_assoc.
  rewrite slice_at by (rewrite ?app_length, ?le_len, ?slice_length by (unfold datagram in H; lia); lia).
  apply unle_le. unfold u16. change (256 ^ Z.of_nat 2) with 65536. change (2 ^ 16) with 65536. apply Z.mod_pos_bound. lia.
Qed.

Section Hop.
Context {K : Type}.
Variable seal : K -> list Z -> list Z -> list Z -> list Z * list Z.
Variable unseal : K -> list Z -> list Z -> list Z -> list Z -> option (list Z).
Variable late : list Z -> Z -> Z -> bool.
Hypothesis C : ciphers seal unseal.

(** what is sealed is opened: only the mac is new *)
Lemma seal_open_packet k d : datagram d -> exists mac, bytes 16 mac /\
  open_packet unseal k (seal_packet seal k d) = Some (mac ++ skipn 16 d) /\ datagram (seal_packet seal k d) /\ d_nonce (seal_packet seal k d) = d_nonce d.
Proof.
  intros H. destruct (lens d H) as (L1 & L2 & L3). unfold seal_packet. pose proof (C k (d_nonce d) [] (d_sealed d)) as Q.
  destruct (seal k (d_nonce d) [] (d_sealed d)) as [mac c] eqn:E. destruct Q as (B & Lc & U). exists mac. split; [exact B|].
  destruct B as [Lm _]. destruct (parts3 mac c (d_nonce d)) as (P1 & P2 & P3 & P4); try lia. split; [|split; [exact P4|exact P3]].
  unfold open_packet. rewrite P1, P2, P3, U. f_equal. f_equal.
  pose proof (whole d H) as Wd. rewrite Wd at 3. symmetry. apply skipn_exact. lia.
Qed.

(** one hop with matching keys *)
Lemma one_hop s s' k sq now d : s_write s = Some k -> s_set s' = true -> s_read s' = Some k -> datagram d -> 0 <= sq < 4294967296 -> 0 <= d_hop d < 65536 ->
  late (d_tstamp d) (d_ttl d) now = false ->
  exists w r, send_encrypted seal s sq d = Some w /\ datagram w /\ d_nonce w = d_nonce d /\ alias_decrypt unseal late s' now w = Some r /\
    datagram r /\ unle (slice r 16 4) = sq /\ d_hop r = d_hop d /\ content r = content d /\ formed r (content d).
Proof.
  intros W S R H Q P T. unfold send_encrypted. rewrite W. set (d1 := set_instructions d sq (d_hop d)).
  destruct (seal_open_packet k d1) as (mac & [Lm Fm] & O & Dw & Nw); [apply set_len; auto|].
  destruct (instr_back mac d sq (d_hop d) H Lm Q P) as (I1 & I2 & I3 & I4). fold d1 in I1, I2, I3, I4.
  exists (seal_packet seal k d1), (mac ++ skipn 16 d1). split; [reflexivity|]. split; [exact Dw|].
  split; [rewrite Nw; apply nonce_content; apply content_set; auto|].
  split; [|repeat (split; auto); apply formed_set; auto]. unfold alias_decrypt. rewrite S, R, O. destruct (tstamp_content _ _ I4) as [-> ->]. now rewrite T.
Qed.

(** a path whose keys match *)
Definition matching (h : hop (K := K)) : Prop := exists k, s_write (h_from h) = Some k /\ s_set (h_to h) = true /\ s_read (h_to h) = Some k.
Lemma path_ok path : forall first d, datagram d -> 0 <= d_hop d < 65536 -> formed d (content d) ->
  Forall (fun h => matching h /\ 0 <= h_seq h < 4294967296 /\ late (d_tstamp d) (d_ttl d) (h_now h) = false) path ->
  exists r, relay seal unseal late first path d = Some r /\ datagram r /\ 0 <= d_hop r < 65536 /\ content r = content d /\ formed r (content d) /\
    d_hop r = (d_hop d + Z.of_nat (length path) - (if first then match path with [] => 0 | _ => 1 end else 0)) mod 65536.
Proof.
  induction path as [|h path IH]; intros first d H P Fo F.
  - exists d. cbn [relay length]. repeat split; auto; try lia. rewrite Z.mod_small; destruct first; lia.
  - inversion F as [|? ? F1 F2]; subst. clear F. destruct F1 as ((k & W & S & R) & Q & T). cbn [relay].
    assert (D : datagram (if first then d else forward d) /\ content (if first then d else forward d) = content d /\
      d_hop (if first then d else forward d) = (d_hop d + if first then 0 else 1) mod 65536).
    { destruct first; [repeat split; auto; rewrite Z.add_0_r, Z.mod_small; lia|]. destruct (forward_ok d H P) as (A & B & E). repeat split; auto. }
    destruct D as (Da & Dc & Dh). destruct (tstamp_content _ _ Dc) as [Ts Tt].
    assert (P1 : 0 <= d_hop (if first then d else forward d) < 65536) by (rewrite Dh; apply Z.mod_pos_bound; lia).
    assert (T1 : late (d_tstamp (if first then d else forward d)) (d_ttl (if first then d else forward d)) (h_now h) = false) by now rewrite Ts, Tt.
    destruct (one_hop (h_from h) (h_to h) k (h_seq h) (h_now h) (if first then d else forward d) W S R Da Q P1 T1) as (w & r & E1 & _ & _ & E2 & R1 & _ & R2 & R3 & R4).
    rewrite E1, E2. destruct (IH false r R1 ltac:(rewrite R2; auto) ltac:(rewrite R3; auto)) as (r' & E3 & G1 & G2 & G3 & G5 & G4).
    { rewrite Dc in R3. destruct (tstamp_content _ _ R3) as [-> ->]. exact F2. }
    exists r'. rewrite E3. rewrite R3, Dc in G3, G5. split; auto. split; auto. split; auto. split; auto. split; auto.
    rewrite G4, R2, Dh. rewrite Z.sub_0_r. rewrite Zplus_mod_idemp_l. f_equal. cbn [length]. destruct first; lia.
Qed.
End Hop.

Lemma linked_match {K} (x : exchange K) pub half sa sb : exchange_law x pub half -> linked x pub sa sb ->
  exists k, s_write sa = Some k /\ s_set sb = true /\ s_read sb = Some k.
Proof.
  intros L (a & b & Sa & Sb & N & (oa & ->) & (ob & ->)). unfold create_session, crypto_session.
  unfold sound in Sa, Sb. rewrite Sa, Sb. destruct (Z.ltb_spec (p_prio b) (p_prio a)); destruct (Z.ltb_spec (p_prio a) (p_prio b)); try lia; cbn [negb];
    rewrite (xl_client _ _ _ L), (xl_server _ _ _ L); cbn [s_write s_read s_set]; eauto.
Qed.
Lemma linked_sym {K} (x : exchange K) pub sa sb : linked x pub sa sb -> linked x pub sb sa.
Proof. intros (a & b & Sa & Sb & N & Ha & Hb). exists b, a. repeat split; auto. Qed.

(** keys of a session, by the part each node takes *)
Lemma keys_of {K} (x : exchange K) pub half a b s : exchange_law x pub half -> sound pub a -> holds x a b s ->
  exists client server, (if p_prio b <? p_prio a then client = p_pk a /\ server = p_pk b else client = p_pk b /\ server = p_pk a) /\
    s_write s = Some (half client server (p_prio b <? p_prio a)) /\ s_read s = Some (half client server (negb (p_prio b <? p_prio a))) /\ s_set s = true.
Proof.
  intros L Sa (o & ->). unfold create_session, crypto_session, sound in *. rewrite Sa. destruct (p_prio b <? p_prio a); cbn [negb];
    rewrite ?(xl_client _ _ _ L), ?(xl_server _ _ _ L); cbn [s_write s_read s_set]; eauto 8.
Qed.

(** built packets *)
Definition chunk_mem (b : list Z) (i : nat) : list Z :=
  shift2 (mac_of b) (Z.of_nat i) ++ header_of b ++ slice (body_of b) (i * Z.to_nat chunk_bytes) (Z.to_nat chunk_bytes)
    ++ (if (0 <? i)%nat then shift2 (nonce_of b) (- Z.of_nat i) else nonce_of b).
Lemma build_mem b i m sq h : build_packet b i m sq h = m ++ le 4 sq ++ le 2 h ++ chunk_mem b i.
Proof. reflexivity. Qed.
Lemma content_build b i m sq h : length m = 16%nat -> content (build_packet b i m sq h) = chunk_mem b i.
Proof.
  intros L. rewrite build_mem. replace (m ++ le 4 sq ++ le 2 h ++ chunk_mem b i) with ((m ++ le 4 sq ++ le 2 h) ++ chunk_mem b i) by (rewrite <- !app_assoc; reflexivity).
  unfold content. apply skipn_exact. rewrite !app_length, !le_len. lia.
Qed.
Lemma build_formed b i m sq h : length m = 16%nat -> formed (build_packet b i m sq h) (content (build_packet b i m sq h)).
Proof. intros L. rewrite content_build by auto. exists m, sq, h. split; [auto|]. apply build_mem. Qed.
Lemma build_hop b i m sq h : length m = 16%nat -> 0 <= h < 65536 -> d_hop (build_packet b i m sq h) = h.
Proof.
  intros L R. rewrite build_mem. unfold d_hop. rewrite app_assoc. rewrite slice_at by (rewrite ?app_length, ?le_len; lia).
  apply unle_le. change (256 ^ Z.of_nat 2) with 65536. lia.
Qed.
Lemma slice_slice (l : list Z) a n b m : (b + m <= n)%nat -> slice (slice l a n) b m = slice l (a + b) m.
Proof. intros H. unfold slice. rewrite skipn_firstn_comm, firstn_firstn, skipn2. f_equal. lia. Qed.
Lemma shift2_len l d n : length l = n -> (2 <= n)%nat -> length (shift2 l d) = n.
Proof. intros L H. unfold shift2. rewrite app_length, le_len, skipn_length. lia. Qed.
Lemma user_packet f t fill pad seal unseal nonce n i m sq h : fields_ok f -> bytes 28 fill -> cipher seal unseal -> bytes 12 nonce -> 0 < np_tree_get_byte_size t <= 64800 ->
  enough_pieces (np_tree_get_byte_size t) 900 n -> (i < Z.to_nat n)%nat -> length m = 16%nat ->
  let d := build_packet (encrypt seal nonce (create f t fill pad)) i m sq h in datagram d /\ d_tstamp d = f_tstamp f /\ d_ttl d = f_ttl f.
Proof.
  intros F Bf C Bn Hs En Hi Lm d. destruct (create_shape f t fill pad F Bf Hs) as (n' & body & E & H1 & En' & Lb & _).
  assert (n' = n) as ->. { destruct En as [A1 A2]. destruct En' as [B1 B2]. assert (0 < n) by lia. specialize (A2 ltac:(lia)). specialize (B2 ltac:(lia)). clear - A1 A2 B1 B2. nia. }
  fold (with_parts f n) in E. pose proof (fields_parts f n F) as F'. pose proof (header_len _ F') as Lh.
  destruct (seal_open seal unseal nonce (header_mem (with_parts f n)) fill body C Bn (proj1 Bf) Lh) as (mac & c & EE & Bm & Lc & _).
  unfold d. rewrite E, EE. set (b := nonce ++ mac ++ header_mem (with_parts f n) ++ c).
  assert (PB : parse_packet (build_packet b i m sq h) = packet_of (as_message nonce mac (header_mem (with_parts f n)) c n) i).
  { apply parse_build; auto. apply (parts_at (with_parts f n) F'). cbn [f_parts with_parts]. lia. lia. }
  assert (PH : slice (build_packet b i m sq h) 38 96 = header_mem (with_parts f n)) by exact (f_equal pheader PB).
  assert (RB : read_fields (header_mem (with_parts f n)) = with_parts f n) by (apply header_back; auto; cbn [f_parts with_parts]; lia).
  split; [|split].
  - unfold datagram. rewrite build_mem, !app_length, !le_len, Lm. unfold chunk_mem, b. rewrite mac_at, header_at, body_at, nonce_at by (try apply Bn; try apply Bm; auto).
    rewrite !app_length, (shift2_len mac _ 16) by (try apply Bm; lia). rewrite Lh. change (Z.to_nat chunk_bytes) with 900%nat. rewrite slice_length by (clear - Lc Lb Hi; nia).
    destruct Bn as [Ln _]. destruct (0 <? i)%nat; rewrite ?(shift2_len nonce _ 12), ?Ln by (auto; lia); lia.
  - unfold d_tstamp. change 118%nat with (38 + 80)%nat. rewrite <- (slice_slice _ 38 96) by lia. rewrite PH. exact (f_equal f_tstamp RB).
  - unfold d_ttl. change 126%nat with (38 + 88)%nat. rewrite <- (slice_slice _ 38 96) by lia. rewrite PH. exact (f_equal f_ttl RB).
Qed.

(** nonces *)
Lemma NoDup_app2 {A} (l m : list A) : NoDup l -> NoDup m -> (forall x, In x l -> ~ In x m) -> NoDup (l ++ m).
Proof.
  induction l as [|x l IH]; intros Nl Nm D; cbn [app]; auto. inversion Nl as [|? ? Nx N']; subst. constructor.
  - rewrite in_app_iff. intros [H|H]; [auto|]. exact (D x (or_introl eq_refl) H).
  - apply IH; auto. intros y I. apply D. right. auto.
Qed.
Lemma NoDup_map_in {A B} (f : A -> B) (l : list A) : (forall x y, In x l -> In y l -> f x = f y -> x = y) -> NoDup l -> NoDup (map f l).
Proof.
  induction l as [|x l IH]; intros H N; cbn [map]; [constructor|]. inversion N as [|? ? Nx N']; subst. constructor.
  - intros I. apply in_map_iff in I. destruct I as (y & E & Iy). apply Nx. rewrite <- (H y x); auto; [right; auto|left; auto].
  - apply IH; auto. intros a b Ia Ib. apply H; right; auto.
Qed.
Lemma NoDup_parts {A B T} (g : A -> list B) (tag : B -> T) (t : A -> T) (l : list A) :
  (forall x, In x l -> NoDup (g x) /\ forall y, In y (g x) -> tag y = t x) -> NoDup (map t l) -> NoDup (concat (map g l)).
Proof.
  induction l as [|x l IH]; intros H N; cbn [map concat]; [constructor|]. inversion N as [|? ? Nx Nl]; subst.
  destruct (H x (or_introl eq_refl)) as [Hx Tx]. apply NoDup_app2; auto.
  - apply IH; auto. intros y I. apply H. right. auto.
  - intros y Iy Ic. apply in_concat in Ic. destruct Ic as (ys & Im & Iy'). apply in_map_iff in Im. destruct Im as (x' & <- & Ix').
    apply Nx. rewrite <- (Tx y Iy). apply in_map_iff. exists x'. split; auto. symmetry. apply (proj2 (H x' (or_intror Ix'))). exact Iy'.
Qed.
Lemma wire_nonce b i m sq h : Forall (fun v => 0 <= v < 256) (firstn 12 b) -> length m = 16%nat -> (124 + i * 900 + 900 <= length b)%nat ->
  skipn 1034 (build_packet b i m sq h) = le 2 (u16 (unle (firstn 2 (nonce_of b)) - Z.of_nat i)) ++ skipn 2 (nonce_of b).
Proof.
  intros Fb Lm Lb. assert (Bn : bytes 12 (nonce_of b)) by (split; [apply slice_length; lia|exact Fb]).
  rewrite build_mem. unfold chunk_mem. change (Z.to_nat chunk_bytes) with 900%nat.
  assert (L2 : length (shift2 (mac_of b) (Z.of_nat i)) = 16%nat) by (apply shift2_len; [apply slice_length; lia|lia]).
  assert (L3 : length (header_of b) = 96%nat) by (apply slice_length; lia).
  assert (L4 : length (slice (body_of b) (i * 900) 900) = 900%nat) by (apply slice_length; unfold body_of; rewrite skipn_length; lia).
  set (tl := if (0 <? i)%nat then _ else _). rewrite !app_assoc. rewrite skipn_exact by (rewrite !app_length, !le_len, L2, L3, L4, Lm; reflexivity).
  unfold tl. destruct (Nat.ltb_spec 0 i).
  - unfold shift2. do 3 f_equal.
  - replace i with 0%nat by lia. change (Z.of_nat 0) with 0. rewrite Z.sub_0_r. destruct (split2 (nonce_of b) 12 Bn ltac:(lia)) as (E & R & _).
    unfold u16. rewrite Z.mod_small by lia. symmetry. exact E.
Qed.
Lemma nonce_same d : datagram d -> d_nonce d = skipn 1034 d.
Proof. intros D. unfold d_nonce, slice. apply firstn_all2. rewrite skipn_length. unfold datagram in D. lia. Qed.
Lemma packet_len b i m sq h : length m = 16%nat -> (124 + i * 900 + 900 <= length b)%nat -> datagram (build_packet b i m sq h).
Proof.
  intros Lm Lb. unfold datagram. rewrite build_mem. unfold chunk_mem. change (Z.to_nat chunk_bytes) with 900%nat.
  assert (L2 : length (shift2 (mac_of b) (Z.of_nat i)) = 16%nat) by (apply shift2_len; [apply slice_length; lia|lia]).
  assert (L3 : length (header_of b) = 96%nat) by (apply slice_length; lia).
  assert (L4 : length (slice (body_of b) (i * 900) 900) = 900%nat) by (apply slice_length; unfold body_of; rewrite skipn_length; lia).
  assert (L5 : length (nonce_of b) = 12%nat) by (apply slice_length; lia).
  rewrite !app_length, !le_len, L2, L3, L4, Lm. destruct (0 <? i)%nat; rewrite ?(shift2_len _ _ 12), ?L5; auto; lia.
Qed.
Lemma le2_inj a b : 0 <= a < 65536 -> 0 <= b < 65536 -> le 2 a = le 2 b -> a = b.
Proof. intros A B E. apply (f_equal unle) in E. rewrite !unle_le in E by (change (256 ^ Z.of_nat 2) with 65536; lia). exact E. Qed.
Lemma u16_sub_inj x i j : 0 <= i < 65536 -> 0 <= j < 65536 -> u16 (x - i) = u16 (x - j) -> i = j.
Proof.
  intros A B E. unfold u16 in E. change (2 ^ 16) with 65536 in E.
  assert (Q : (i - j) mod 65536 = 0). { replace (i - j) with ((x - j) - (x - i)) by lia. rewrite Zminus_mod, E, Z.sub_diag. reflexivity. }
  apply Z.mod_divide in Q; [|lia]. destruct Q as [q Q]. nia.
Qed.
Lemma user_nonces ms ins : Forall message_memory ms -> NoDup (map (fun m => nonce_tail (fst m)) ms) -> (forall j i, length (fst (fst (ins j i))) = 16%nat) ->
  NoDup (map nonce_on_wire (wire_packets ms ins)) /\ Forall datagram (wire_packets ms ins).
Proof.
  intros F N Hi. unfold wire_packets. rewrite concat_map, map_map. rewrite Forall_forall in F.
  assert (IN : forall j m, In (j, m) (combine (seq 0 (length ms)) ms) -> In m ms) by (intros j m I; apply in_combine_r in I; exact I).
  split.
  - apply (NoDup_parts _ (fun n => skipn 2 n) (fun x => nonce_tail (fst (snd x)))).
    + intros [j m] I. cbn [fst snd]. destruct (F m (IN j m I)) as (Fb & Lb & Hn). destruct m as [b n]. cbn [fst snd] in *.
      unfold packets. rewrite map_map.
      assert (W : forall i, In i (seq 0 n) -> nonce_on_wire (let '(mm, sq, h) := ins j i in build_packet b i mm sq h) = le 2 (u16 (unle (firstn 2 (nonce_of b)) - Z.of_nat i)) ++ skipn 2 (nonce_of b)).
      { intros i Ii. apply in_seq in Ii. pose proof (Hi j i) as Q. destruct (ins j i) as [[mm sq] h]. cbn [fst] in Q. apply wire_nonce; auto. clear - Lb Ii. nia. }
      rewrite (map_ext_in _ _ _ W). split.
      * apply NoDup_map_in; [|apply seq_NoDup]. intros i i' I1 I2 E. apply in_seq in I1. apply in_seq in I2.
        apply (f_equal (firstn 2)) in E. rewrite !le_unle_pre in E. apply le2_inj in E; try apply u16_range. apply u16_sub_inj in E; lia.
      * intros y Iy. apply in_map_iff in Iy. destruct Iy as (i & <- & _). rewrite skip2. reflexivity.
    + replace (map (fun x => nonce_tail (fst (snd x))) (combine (seq 0 (length ms)) ms)) with (map (fun m => nonce_tail (fst m)) ms); [exact N|].
      clear. generalize 0%nat. induction ms as [|m ms IH]; intros k; cbn [length seq combine map]; [reflexivity|]. f_equal. apply IH.
  - apply Forall_forall. intros d I. apply in_concat in I. destruct I as (l & Il & Id). apply in_map_iff in Il. destruct Il as ([j m] & <- & Im). cbn [fst snd] in Id.
    destruct (F m (IN j m Im)) as (Fb & Lb & Hn). destruct m as [b n]. cbn [fst snd] in *. unfold packets in Id. apply in_map_iff in Id. destruct Id as (i & <- & Ii). apply in_seq in Ii.
    pose proof (Hi j i) as Q. destruct (ins j i) as [[mm sq] h]. cbn [fst] in Q. apply packet_len; auto. clear - Lb Ii. nia.
Qed.
Lemma send_nonce {K} (seal : K -> list Z -> list Z -> list Z -> list Z * list Z) unseal s k sq d : ciphers seal unseal -> s_write s = Some k -> datagram d ->
  exists w, send_encrypted seal s sq d = Some w /\ datagram w /\ nonce_on_wire w = nonce_on_wire d /\
    text w = snd (seal k (nonce_on_wire d) [] (text (set_instructions d sq (d_hop d)))).
Proof.
  intros C W D. unfold send_encrypted. rewrite W. set (d1 := set_instructions d sq (d_hop d)). assert (D1 : datagram d1) by (apply set_len; auto).
  destruct (seal_open_packet seal unseal (fun _ _ _ => false) C k d1 D1) as (mac & _ & _ & Dw & Nw). eexists. split; [reflexivity|]. split; [exact Dw|].
  assert (EN : nonce_on_wire d = d_nonce d1). { unfold nonce_on_wire. rewrite <- nonce_same by auto. apply nonce_content. symmetry. apply content_set. auto. }
  split.
  - unfold nonce_on_wire in *. rewrite <- nonce_same by auto. rewrite Nw. symmetry. exact EN.
  - rewrite EN. destruct (lens d1 D1) as (L1 & L2 & L3). unfold seal_packet. pose proof (C k (d_nonce d1) [] (d_sealed d1)) as Q. change (text d1) with (d_sealed d1).
    destruct (seal k (d_nonce d1) [] (d_sealed d1)) as [m c]. destruct Q as ([Lm _] & Lc & _). cbn [snd].
    destruct (parts3 m c (d_nonce d1)) as (_ & P2 & _ & _); try lia. exact P2.
Qed.
