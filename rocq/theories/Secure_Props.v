(** C68: packets between nodes are read by the partner and nobody else makes them.  C69: nonces. *)
From Verif Require Import Base Dhkey_Model Rbtree_Model Tree_Model Cbor_Model Treeval_Model Message_Model Message_Spec Message_Proofs Wire_Model Wire_Spec Wire_Proofs Wire_Props Secure_Model Secure_Spec Secure_Proofs.
From Verif Require Data_Model.

(** ** C68 *)
(** Two nodes that exchanged their handshakes (with different priorities) have matching keys, in both directions: what one sends the
    other reads, unless it comes too late; only the instructions of the hop are new. *)
Theorem C68_readable_partial : forall (K : Type) (x : exchange K) pub half seal unseal late sa sb sq now d,
  exchange_law x pub half -> ciphers seal unseal -> linked x pub sa sb ->
  datagram d -> 0 <= d_hop d < 65536 -> 0 <= sq < 4294967296 -> late (d_tstamp d) (d_ttl d) now = false ->
  (exists w r, send_encrypted seal sa sq d = Some w /\ alias_decrypt unseal late sb now w = Some r /\ content r = content d /\ d_hop r = d_hop d) /\
  (exists w r, send_encrypted seal sb sq d = Some w /\ alias_decrypt unseal late sa now w = Some r /\ content r = content d /\ d_hop r = d_hop d).
Proof.
  intros K x pub half seal unseal late sa sb sq now d L C Li H P Q T. split.
  - destruct (linked_match x pub half sa sb L Li) as (k & W & S & R).
    destruct (one_hop seal unseal late C sa sb k sq now d W S R H Q P T) as (w & r & E1 & _ & _ & E2 & _ & _ & E3 & E4 & _). eauto 8.
  - destruct (linked_match x pub half sb sa L (linked_sym _ _ _ _ Li)) as (k & W & S & R).
    destruct (one_hop seal unseal late C sb sa k sq now d W S R H Q P T) as (w & r & E1 & _ & _ & E2 & _ & _ & E3 & E4 & _). eauto 8.
Qed.

(** Over any number of nodes that forward it, a packet arrives with the content it was sent with; the hop count says how often it
    was forwarded (modulo 2^16). *)
Theorem C68_path_partial : forall (K : Type) (x : exchange K) pub half seal unseal late path b i mac_n sq,
  exchange_law x pub half -> ciphers seal unseal -> length mac_n = 16%nat ->
  let d := build_packet b i mac_n sq 0 in datagram d -> good_path x pub late (d_tstamp d) (d_ttl d) path -> path <> [] ->
  exists r, relay seal unseal late true path d = Some r /\ parse_packet r = parse_packet d /\ content r = content d /\
    d_hop r = (Z.of_nat (length path) - 1) mod 65536.
Proof.
  intros K x pub half seal unseal late path b i mac_n sq L C Lm d H G Ne.
  pose proof (build_formed b i mac_n sq 0 Lm) as Fd. fold d in Fd.
  pose proof (build_hop b i mac_n sq 0 Lm ltac:(lia)) as Hz. fold d in Hz.
  destruct (path_ok seal unseal late C path true d H ltac:(lia) Fd) as (r & E & D & _ & Ec & _ & Eh).
  { eapply Forall_impl; [|exact G]. intros h (Li & Sq & T). split; [|auto]. exact (linked_match x pub half _ _ L Li). }
  exists r. split; [exact E|]. split; [apply parse_content; exact Ec|]. split; [exact Ec|]. rewrite Eh, Hz. destruct path; [congruence|]. f_equal.
Qed.

(** What a user hands to np_send, encrypted for the receiver, cut into packets, each of them encrypted again for every hop of a path of
    its own, is what the callback at the receiver gets, in whatever order the packets come.  Missing (as in C33): packet numbers that
    run over, larger bodies. *)
Theorem C68_delivery_partial : forall (K : Type) (x : exchange K) pub half hseal hunseal late payload attributes f fill pad seal unseal nonce ins beyond (paths : nat -> list hop),
  exchange_law x pub half -> ciphers hseal hunseal -> (forall i, good_path x pub late (f_tstamp f) (f_ttl f) (paths i)) ->
  Z.of_nat (length payload) + Z.of_nat (length attributes) <= 64764 -> (length attributes <= Z.to_nat 10240)%nat ->
  fields_ok f -> bytes 28 fill -> cipher seal unseal -> bytes 12 nonce -> (forall i, length (fst (fst (ins i))) = 16%nat /\ snd (ins i) = 0) ->
  exists t n attr, user_body payload attributes = Ok t /\ 1 <= n <= 72 /\ enough_pieces (np_tree_get_byte_size t) 900 n /\
    (if (0 <? length attributes)%nat then attr = attributes ++ repeat 0 (Z.to_nat 10240 - length attributes)
     else exists r, Data_Model.np_init_datablock (repeat 0 (Z.to_nat 10240)) 10240 = Data_Model.Done (r, attr)) /\
    let b := encrypt seal nonce (create f t fill pad) in
    first_number b + n <= 65536 -> exists arrivals, carried hseal hunseal late paths (packets b (Z.to_nat n) ins) arrivals /\
      forall order, Permutation order arrivals -> received order b /\ deliver unseal b beyond = Ok (Some (mkU (f_uuid f) (f_subject f) payload attr)).
Proof.
  intros K x pub half hseal hunseal late payload attributes f fill pad seal unseal nonce ins beyond paths L HC G Hl Ha F Bf C Bn Hi.
  destruct (C33_delivery_partial payload attributes f fill pad seal unseal nonce ins beyond Hl Ha F Bf C Bn (fun i => proj1 (Hi i))) as (t & n & attr & Et & Hn & En & HA & _).
  destruct (user_tree payload attributes Hl) as (t' & Et' & _ & _ & Hz). assert (t' = t) as -> by congruence. clear Et'.
  exists t, n, attr. split; [exact Et|]. split; [exact Hn|]. split; [exact En|]. split; [exact HA|]. intros b Hw.
  set (pk := fun i => let '(m, sq, h) := ins i in build_packet b i m sq h).
  set (arr := fun i => match relay hseal hunseal late true (paths i) (pk i) with Some r => r | None => [] end).
  set (ins' := fun i => (if (length (slice (arr i) 0 16) =? 16)%nat then slice (arr i) 0 16 else repeat 0 16, unle (slice (arr i) 16 4), d_hop (arr i))).
  assert (HR : forall i, (i < Z.to_nat n)%nat -> relay hseal hunseal late true (paths i) (pk i) = Some (arr i) /\ arr i = (let '(m, sq, h) := ins' i in build_packet b i m sq h)).
  { intros i Lt. destruct (Hi i) as [Lm H0]. unfold pk in *. unfold arr. destruct (ins i) as [[m sq] h] eqn:Ei. cbn [fst snd] in Lm, H0. subst h.
    destruct (user_packet f t fill pad seal unseal nonce n i m sq 0 F Bf C Bn Hz En Lt Lm) as (D & T1 & T2). fold b in D, T1, T2.
    destruct (path_ok hseal hunseal late HC (paths i) true (build_packet b i m sq 0) D) as (r & E & Dr & _ & Ec & Fo & _).
    - rewrite build_hop by (auto; lia). lia.
    - apply build_formed. exact Lm.
    - rewrite T1, T2. eapply Forall_impl; [|exact (G i)]. intros h (Li & Sq & T). split; [|auto]. exact (linked_match x pub half _ _ L Li).
    - unfold ins', arr, pk. rewrite Ei, E. split; [reflexivity|]. rewrite content_build in Fo by auto. apply formed_back in Fo.
      rewrite slice_length by (unfold datagram in Dr; lia). cbn [Nat.eqb]. exact Fo. }
  assert (PP : packets b (Z.to_nat n) ins = map pk (seq 0 (Z.to_nat n))) by reflexivity.
  exists (packets b (Z.to_nat n) ins'). split.
  - unfold carried. rewrite PP, map_length, seq_length. unfold packets. rewrite map_map. apply map_ext_in. intros i Hin. apply in_seq in Hin.
    rewrite (nth_indep _ [] (pk 0%nat)) by (rewrite map_length, seq_length; lia). rewrite map_nth, seq_nth by lia. cbn [Nat.add]. destruct (HR i ltac:(lia)) as [E1 E2]. rewrite E1. f_equal. exact E2.
  - intros order Po.
    destruct (C33_delivery_partial payload attributes f fill pad seal unseal nonce ins' beyond Hl Ha F Bf C Bn) as (t2 & n2 & attr2 & Et2 & Hn2 & En2 & HA2 & D2).
    + intros i. unfold ins'. cbn [fst]. destruct (Nat.eqb_spec (length (slice (arr i) 0 16)) 16); [auto|apply repeat_length].
    + assert (t2 = t) as -> by congruence. assert (n2 = n) as ->. { destruct En as [A1 A2]. destruct En2 as [B1 B2]. specialize (A2 ltac:(lia)). specialize (B2 ltac:(lia)). clear - A1 A2 B1 B2. nia. }
      assert (attr2 = attr) as ->. { destruct (0 <? length attributes)%nat; [congruence|]. destruct HA as (r1 & E1). destruct HA2 as (r2 & E2). congruence. }
      cbv zeta in D2. exact (D2 Hw order Po).
Qed.

(** nothing is accepted after its time to live: the time stamp and the time to live that count are the encrypted ones of the sender *)
Theorem C68_in_time : forall (K : Type) (unseal : K -> list Z -> list Z -> list Z -> list Z -> option (list Z)) late s now d p,
  alias_decrypt unseal late s now d = Some p -> late (firstn 8 (skipn 118 p)) (unle (firstn 4 (skipn 126 p))) now = false.
Proof.
  intros K unseal late s now d p E. unfold alias_decrypt in E. destruct (s_set s); [|discriminate]. destruct (s_read s); [|discriminate]. destruct (open_packet unseal k d) as [q|]; [|discriminate].
  destruct (late (d_tstamp q) (d_ttl q) now) eqn:F; [discriminate|]. injection E as <-. exact F.
Qed.
(** Whoever accepts a packet in its session with a peer knows: that peer sent it, to this node, exactly so (apart from the mac), and it
    is in time.  All nodes use the keys of their handshakes and nobody else can seal. *)
Theorem C68_authentic : forall (K : Type) (x : exchange K) pub half unseal late nodes sent arrived a b s now w r,
  exchange_law x pub half -> (forall i, sound pub (nodes i)) -> (forall i j, p_pk (nodes i) = p_pk (nodes j) -> i = j) ->
  (forall i j d, In (i, j, d) sent -> datagram d) -> unforgeable unseal (made_by x nodes sent) arrived ->
  holds x (nodes b) (nodes a) s -> datagram w -> arrived w -> alias_decrypt unseal late s now w = Some r ->
  exists d, In (a, b, d) sent /\ skipn 16 r = skipn 16 d /\ late (d_tstamp d) (d_ttl d) now = false.
Proof.
  intros K x pub half unseal late nodes sent arrived a b s now w r L Sn Inj Hd U Hs Dw Aw A.
  destruct (keys_of x pub half (nodes b) (nodes a) s L (Sn b) Hs) as (c & sv & Cs & _ & Rk & Ss).
  unfold alias_decrypt in A. rewrite Ss, Rk in A. unfold open_packet in A.
  destruct (unseal _ (d_nonce w) [] (d_mac w) (d_sealed w)) as [p|] eqn:E; [|discriminate]. apply (U w _ p Aw) in E. destruct E as (a' & b' & s' & d & I & Hh & Wk & En). fold (d_nonce w) in En.
  destruct (late _ _ _) eqn:T; [discriminate|]. injection A as <-.
  destruct (keys_of x pub half (nodes a') (nodes b') s' L (Sn a') Hh) as (c' & sv' & Cs' & Wk' & _ & _). rewrite Wk' in Wk.
  assert (HE : half c' sv' (p_prio (nodes b') <? p_prio (nodes a')) = half c sv (negb (p_prio (nodes a) <? p_prio (nodes b)))) by congruence.
  apply (xl_sep _ _ _ L) in HE. destruct HE as (-> & -> & HE). rewrite HE in Cs'.
  assert (AB : a' = a /\ b' = b).
  { destruct (p_prio (nodes a) <? p_prio (nodes b)); cbn [negb] in Cs'; destruct Cs as [-> ->]; destruct Cs' as [E1 E2]; split; apply Inj; congruence. }
  destruct AB as [-> ->]. exists d. split; [exact I|]. pose proof (Hd _ _ _ I) as Dd. destruct (lens w Dw) as (L1 & _ & _). destruct (lens d Dd) as (M1 & M2 & M3).
  assert (S16 : skipn 16 (d_mac w ++ p ++ d_nonce w) = skipn 16 d).
  { rewrite skipn_exact by lia. symmetry. exact En. }
  split; [exact S16|].
  assert (Ec : content (d_mac w ++ p ++ d_nonce w) = content d) by (unfold content; change 22%nat with (16 + 6)%nat; rewrite <- !skipn2; now rewrite S16).
  destruct (tstamp_content _ _ Ec) as [<- <-]. exact T.
Qed.

(** Two nodes whose handshakes have the same priority both take the part of the server: none of them can read what the other sends. *)
Theorem C68_equal_priority_refuted : forall (K : Type) (x : exchange K) pub half seal unseal late a b sa sb,
  exchange_law x pub half -> own_key seal unseal -> ciphers seal unseal -> sound pub a -> sound pub b -> p_prio a = p_prio b -> holds x a b sa -> holds x b a sb ->
  forall d sq now, datagram d -> exists w, send_encrypted seal sa sq d = Some w /\ alias_decrypt unseal late sb now w = None.
Proof.
  intros K x pub half seal unseal late a b sa sb L O C Sa Sb Eq Ha Hb d sq now D.
  destruct (keys_of x pub half a b sa L Sa Ha) as (c & s & Cs & Wk & _ & _). destruct (keys_of x pub half b a sb L Sb Hb) as (c' & s' & Cs' & _ & Rk & Ss).
  rewrite Eq, Z.ltb_irrefl in *. cbn [negb] in Rk. unfold send_encrypted. rewrite Wk. eexists. split; [reflexivity|].
  unfold alias_decrypt. rewrite Ss, Rk. set (d1 := set_instructions d sq (d_hop d)). assert (D1 : datagram d1) by (apply set_len; auto). destruct (lens d1 D1) as (L1 & L2 & L3).
  unfold seal_packet. pose proof (C (half c s false) (d_nonce d1) [] (d_sealed d1)) as Q. pose proof (O (half c s false) (half c' s' true) (d_nonce d1) (d_sealed d1)) as R.
  destruct (seal (half c s false) (d_nonce d1) [] (d_sealed d1)) as [mac cc]. destruct Q as ([Lm _] & Lc & _).
  destruct (parts3 mac cc (d_nonce d1)) as (P1 & P2 & P3 & _); try lia. unfold open_packet. rewrite P1, P2, P3.
  destruct (unseal _ (d_nonce d1) [] mac cc) as [q|] eqn:E; [|reflexivity]. assert (Np : d_sealed d1 <> []) by (intros Q; rewrite Q in L2; discriminate L2). specialize (R q Np eq_refl). apply (xl_sep _ _ _ L) in R. destruct R as (_ & _ & R). discriminate R.
Qed.

(** The sequence number of a packet is written but never looked at (np_comp_alias.c:687, "TODO: check increasing counter"): what was
    accepted once is accepted as often as it comes, until it is late. *)
Theorem C68_replay_refuted : forall (K : Type) (x : exchange K) pub half seal unseal late sa sb sq d times,
  exchange_law x pub half -> ciphers seal unseal -> linked x pub sa sb -> datagram d -> 0 <= d_hop d < 65536 -> 0 <= sq < 4294967296 ->
  Forall (fun now => late (d_tstamp d) (d_ttl d) now = false) times ->
  exists w r, send_encrypted seal sa sq d = Some w /\ content r = content d /\ accepts unseal late sb (map (fun now => (now, w)) times) = map (fun _ => Some r) times.
Proof.
  intros K x pub half seal unseal late sa sb sq d times L C Li D P Q T. destruct (linked_match x pub half sa sb L Li) as (k & W & Ss & R).
  unfold send_encrypted. rewrite W. set (d1 := set_instructions d sq (d_hop d)).
  destruct (seal_open_packet seal unseal late C k d1) as (mac & [Lm Fm] & O & Dw & Nw); [apply set_len; auto|].
  exists (seal_packet seal k d1), (mac ++ skipn 16 d1). split; [reflexivity|].
  assert (E : content (mac ++ skipn 16 d1) = content d) by (rewrite content_mac by auto; apply content_set; auto). split; [exact E|].
  unfold accepts. rewrite map_map. apply map_ext_in. intros now I. cbn [fst snd]. rewrite Forall_forall in T. unfold alias_decrypt. rewrite Ss, R, O.
  destruct (tstamp_content _ _ E) as [-> ->]. now rewrite (T now I).
Qed.

(** keys by name (the pair of nodes and the direction), and a cipher that writes its key next to every byte *)
Definition named_exchange : exchange (Z * Z * bool) :=
  mkX (fun _ pk peer => Some ((pk, peer, false), (pk, peer, true))) (fun _ pk peer => Some ((peer, pk, true), (peer, pk, false))).
Definition zz (z : Z) : Z := if z <? 0 then -2 * z - 1 else 2 * z.
Definition unzz (n : Z) : Z := if Z.odd n then - ((n + 1) / 2) else n / 2.
Definition pr (a b : Z) : Z := (a + b) * (a + b) + a.
Definition unpr (v : Z) : Z * Z := let s := Z.sqrt v in (v - s * s, s - (v - s * s)).
Definition code (k : Z * Z * bool) : Z := let '(c, s, d) := k in pr (pr (zz c) (zz s)) (if d then 1 else 2).
Definition kseal (k : Z * Z * bool) (nonce h p : list Z) : list Z * list Z := (repeat 9 16, map (fun b => pr (code k) (zz b)) p).
Definition kunseal (k : Z * Z * bool) (nonce h mac c : list Z) : option (list Z) :=
  if forallb (fun v => fst (unpr v) =? code k) c then Some (map (fun v => unzz (snd (unpr v))) c) else None.
Lemma zz_pos z : 0 <= zz z. Proof. unfold zz. destruct (Z.ltb_spec z 0); lia. Qed.
Lemma unzz_zz z : unzz (zz z) = z.
Proof.
  unfold unzz, zz. destruct (Z.ltb_spec z 0).
  - replace (-2 * z - 1) with (1 + 2 * (- z - 1)) by lia. rewrite Z.odd_add_mul_2. change (Z.odd 1) with true. cbn iota. replace (1 + 2 * (- z - 1) + 1) with (- z * 2) by lia. rewrite Z.div_mul by lia. lia.
  - rewrite Z.odd_mul. change (Z.odd 2) with false. cbn [andb]. rewrite Z.mul_comm, Z.div_mul by lia. reflexivity.
Qed.
Lemma pr_pos a b : 0 <= a -> 0 <= b -> 0 <= pr a b. Proof. unfold pr. nia. Qed.
Lemma unpr_pr a b : 0 <= a -> 0 <= b -> unpr (pr a b) = (a, b).
Proof. intros A B. unfold unpr, pr. rewrite (Z.sqrt_unique ((a + b) * (a + b) + a) (a + b)) by nia. f_equal; lia. Qed.
Lemma pr_inj a b a' b' : 0 <= a -> 0 <= b -> 0 <= a' -> 0 <= b' -> pr a b = pr a' b' -> a = a' /\ b = b'.
Proof. intros A B A' B' E. apply (f_equal unpr) in E. rewrite !unpr_pr in E by auto. split; congruence. Qed.
Lemma zz_inj a b : zz a = zz b -> a = b. Proof. intros E. apply (f_equal unzz) in E. rewrite !unzz_zz in E. exact E. Qed.
Lemma code_pos k : 0 <= code k. Proof. destruct k as [[c s] d]. cbn [code]. apply pr_pos; [apply pr_pos; apply zz_pos|destruct d; lia]. Qed.
Lemma code_inj k k' : code k = code k' -> k = k'.
Proof.
  destruct k as [[c s] d], k' as [[c' s'] d']. cbn [code]. intros E. apply pr_inj in E; try (apply pr_pos; apply zz_pos); try (destruct d; lia); try (destruct d'; lia).
  destruct E as [E1 E2]. apply pr_inj in E1; try apply zz_pos. destruct E1 as [E0 E1]. apply zz_inj in E0 as ->. apply zz_inj in E1 as ->. destruct d, d'; try lia; reflexivity.
Qed.
Lemma kseal_open k nonce h p mac : kunseal k nonce h mac (snd (kseal k nonce h p)) = Some p.
Proof.
  unfold kunseal, kseal. cbn [snd]. replace (forallb _ _) with true.
  - rewrite map_map. f_equal. rewrite <- (map_id p) at 2. apply map_ext. intros b. rewrite unpr_pr by (try apply code_pos; apply zz_pos). apply unzz_zz.
  - symmetry. apply forallb_forall. intros v I. apply in_map_iff in I. destruct I as (b & <- & _). rewrite unpr_pr by (try apply code_pos; apply zz_pos). apply Z.eqb_refl.
Qed.
Lemma kseal_wrong k k' nonce nonce' h h' p mac q : p <> [] -> kunseal k' nonce' h' mac (snd (kseal k nonce h p)) = Some q -> k' = k.
Proof.
  intros N E. unfold kunseal, kseal in E. cbn [snd] in E. destruct (forallb _ _) eqn:A; [|discriminate]. destruct p as [|b p]; [congruence|]. cbn [map forallb] in A.
  apply andb_true_iff in A. destruct A as [A _]. rewrite unpr_pr in A by (try apply code_pos; apply zz_pos). cbn [fst] in A. apply Z.eqb_eq in A. apply code_inj. auto.
Qed.
Lemma kseal_len k nonce h p mac c : kseal k nonce h p = (mac, c) -> length c = length p /\ length mac = 16%nat /\ c = snd (kseal k nonce h p).
Proof. intros E. rewrite E. split; [|split; [|reflexivity]]; [apply (f_equal snd) in E|apply (f_equal fst) in E]; cbn [fst snd] in E; rewrite <- E; [apply map_length|reflexivity]. Qed.
Example C68_laws_ex : exchange_law named_exchange (fun sk => sk) (fun c s d => (c, s, d)) /\ ciphers kseal kunseal /\ own_key kseal kunseal.
Proof.
  split; [|split].
  - constructor; try reflexivity. intros c s d c' s' d' E. repeat split; congruence.
  - intros k nonce h p. unfold cipher. destruct (kseal k nonce h p) as [mac c] eqn:E. pose proof (kseal_open k nonce h p mac) as O. rewrite E in O. cbn [snd] in O.
    unfold kseal in E. injection E as <- <-. split; [split; [reflexivity|repeat constructor; lia]|]. split; [apply map_length|exact O].
  - intros k k' nonce p q N. destruct (kseal k nonce [] p) as [mac c] eqn:E. intros U. apply (kseal_wrong k k' nonce nonce [] [] p mac q N). rewrite E. exact U.
Qed.
(** three nodes in a row: 1 sends through 2 to 3 *)
Definition node (i : Z) : party := mkParty i i (10 * i).
Definition sess (i j : Z) : session (Z * Z * bool) := create_session named_exchange (node i) (Some (p_prio (node j))) (p_pk (node j)) no_session.
Lemma sess_holds i j : holds named_exchange (node i) (node j) (sess i j). Proof. exists no_session. reflexivity. Qed.
Lemma sess_linked i j : i <> j -> linked named_exchange (fun sk => sk) (sess i j) (sess j i).
Proof. intros N. exists (node i), (node j). split; [reflexivity|]. split; [reflexivity|]. split; [cbn; lia|]. split; apply sess_holds. Qed.
Definition row : list (hop (K := Z * Z * bool)) := [mkHop (sess 1 2) (sess 2 1) 7 0; mkHop (sess 2 3) (sess 3 2) 8 1].
Definition in_time (ts : list Z) (ttl now : Z) : bool := ttl <? now.
Example C68_path_ex : linked named_exchange (fun sk => sk) (sess 1 2) (sess 2 1) /\ sess 1 2 <> sess 2 1 /\ good_path named_exchange (fun sk => sk) in_time (repeat 4 8) 20 row /\
  exists r, relay kseal kunseal in_time true row (build_packet (repeat 20 1024) 0 (repeat 0 16) 0 0) = Some r /\ d_hop r = 1 /\ content r = repeat 20 1024.
Proof.
  assert (G : forall ts ttl, 1 <= ttl -> good_path named_exchange (fun sk => sk) in_time ts ttl row).
  { intros ts ttl H. repeat constructor; cbn [h_from h_to h_seq h_now]; try (apply sess_linked; lia); unfold in_time; try lia; apply Z.ltb_ge; lia. }
  split; [apply sess_linked; lia|]. split; [discriminate|]. split; [apply G; lia|]. destruct C68_laws_ex as (L & C & _).
  destruct (C68_path_partial _ _ _ _ _ _ in_time row (repeat 20 1024) 0%nat (repeat 0 16) 0 L C eq_refl) as (r & E & _ & Ec & Eh); [reflexivity|apply G; vm_compute; discriminate|discriminate|].
  exists r. split; [exact E|]. split; [exact Eh|]. rewrite Ec. reflexivity.
Qed.
Example C68_delivery_ex : forall pad, exists t n attr arrivals, user_body (repeat 77 1000) [10; 20] = Ok t /\
  let b := encrypt nseal (repeat 8 12) (create some_fields t (repeat 0 28) pad) in
  carried kseal kunseal in_time (fun _ => row) (packets b (Z.to_nat n) (fun i => (repeat 6 16, Z.of_nat i, 0))) arrivals /\
  received (rev arrivals) b /\ deliver nunseal b [] = Ok (Some (mkU (repeat 3 16) (repeat 1 8) (repeat 77 1000) attr)).
Proof.
  intros pad. destruct C33_hypotheses_ex as (C & F & Bf & Bn & _ & Hw). destruct C68_laws_ex as (L & HC & _). destruct C68_path_ex as (_ & _ & G & _).
  destruct (C68_delivery_partial _ _ _ _ _ _ in_time (repeat 77 1000) [10; 20] some_fields (repeat 0 28) pad nseal nunseal (repeat 8 12) (fun i => (repeat 6 16, Z.of_nat i, 0)) [] (fun _ => row) L HC) as (t & n & attr & Et & Hn & _ & Ha & D); auto.
  - rewrite repeat_length. cbn [length]. lia.
  - cbn [length]. lia.
  - cbv zeta in D. destruct (D ltac:(specialize (Hw (create some_fields t (repeat 0 28) pad)); lia)) as (arr & Cr & Dl). exists t, n, attr, arr. split; [exact Et|]. cbv zeta. split; [exact Cr|]. apply Dl. apply Permutation_sym. apply Permutation_rev.
Qed.
(** node 1 sent one packet to node 2 and one to node 3; both datagrams and some noise arrive everywhere *)
Definition letter (n : Z) : list Z := repeat n 1046.
Definition on_air : list (list Z) := [seal_packet kseal (2, 1, false) (letter 5); seal_packet kseal (3, 1, false) (letter 6); repeat 0 1046].
Example C68_authentic_ex : unforgeable kunseal (made_by named_exchange node [(1, 2, letter 5); (1, 3, letter 6)]) (fun w => In w on_air) /\
  (forall i, sound (fun sk => sk) (node i)) /\ (forall i j, p_pk (node i) = p_pk (node j) -> i = j) /\ (forall i j d, In (i, j, d) [(1, 2, letter 5); (1, 3, letter 6)] -> datagram d).
Proof.
  assert (Ms : forall k n p, kunseal k (d_nonce (seal_packet kseal (n, 1, false) (letter (n + 3)))) [] (d_mac (seal_packet kseal (n, 1, false) (letter (n + 3)))) (d_sealed (seal_packet kseal (n, 1, false) (letter (n + 3)))) = Some p ->
    k = (n, 1, false) /\ p = repeat (n + 3) 1018 /\ d_nonce (seal_packet kseal (n, 1, false) (letter (n + 3))) = repeat (n + 3) 12).
  { intros k n p. unfold seal_packet. assert (Lt : datagram (letter (n + 3))) by (apply repeat_length). destruct (lens _ Lt) as (L1 & L2 & L3).
    destruct (kseal (n, 1, false) (d_nonce (letter (n + 3))) [] (d_sealed (letter (n + 3)))) as [mac c] eqn:E.
    destruct (kseal_len _ _ _ _ _ _ E) as (Lc & Lm & Ec). rewrite L2 in Lc.
    destruct (parts3 mac c (d_nonce (letter (n + 3)))) as (P1 & P2 & P3 & _); auto. rewrite P1, P2, P3. rewrite Ec. intros U.
    assert (Ek : k = (n, 1, false)). { eapply kseal_wrong; [|exact U]. intros Q. rewrite Q in L2. discriminate L2. }
    split; [exact Ek|]. subst k. rewrite kseal_open in U. split; [|reflexivity]. injection U as <-. reflexivity. }
  split; [|split; [|split]].
  - intros w k p [<-|[<-|[<-|[]]]] U.
    + destruct (Ms k 2 p U) as (-> & -> & E). unfold d_nonce in E. change (2 + 3) with 5 in E. rewrite E. exists 1, 2, (sess 1 2), (letter 5). split; [left; reflexivity|]. split; [apply sess_holds|]. split; reflexivity.
    + destruct (Ms k 3 p U) as (-> & -> & E). unfold d_nonce in E. change (3 + 3) with 6 in E. rewrite E. exists 1, 3, (sess 1 3), (letter 6). split; [right; left; reflexivity|]. split; [apply sess_holds|]. split; reflexivity.
    + exfalso. revert U. unfold kunseal. cbn [slice skipn firstn repeat forallb]. change (fst (unpr 0)) with 0.
      assert (N : 0 <> code k) by (destruct k as [[c s] d]; cbn [code]; unfold pr at 1; pose proof (pr_pos (zz c) (zz s) (zz_pos c) (zz_pos s)); destruct d; nia).
      destruct (Z.eqb_spec 0 (code k)); [contradiction|]. discriminate.
  - intros i. reflexivity.
  - intros i j E. exact E.
  - intros i j d [E|[E|[]]]; injection E as <- <- <-; apply repeat_length.
Qed.
(** the letter for node 2 is accepted by node 2 from node 1, and not by node 3 *)
Example C68_accept_ex : exists w, In w on_air /\ datagram w /\ (exists r, alias_decrypt kunseal (fun _ _ _ => false) (sess 2 1) 0 w = Some r) /\ alias_decrypt kunseal (fun _ _ _ => false) (sess 3 1) 0 w = None.
Proof.
  exists (seal_packet kseal (2, 1, false) (letter 5)). split; [left; reflexivity|]. destruct C68_laws_ex as (L & C & O).
  destruct (seal_open_packet kseal kunseal (fun _ _ _ => false) C (2, 1, false) (letter 5)) as (mac & _ & Op & D & _); [apply repeat_length|]. split; [exact D|]. split.
  - exists (mac ++ skipn 16 (letter 5)). unfold alias_decrypt. change (s_set (sess 2 1)) with true. change (s_read (sess 2 1)) with (Some (2, 1, false)). cbn iota. rewrite Op. reflexivity.
  - unfold alias_decrypt. change (s_set (sess 3 1)) with true. change (s_read (sess 3 1)) with (Some (3, 1, false)). cbn iota. unfold open_packet.
    destruct (kunseal (3, 1, false) _ _ _ _) as [q|] eqn:E; [|reflexivity]. exfalso. unfold seal_packet in E.
    assert (Lt : datagram (letter 5)) by (apply repeat_length). destruct (lens _ Lt) as (L1 & L2 & L3).
    destruct (kseal (2, 1, false) (d_nonce (letter 5)) [] (d_sealed (letter 5))) as [m c] eqn:Es.
    destruct (kseal_len _ _ _ _ _ _ Es) as (Lc & Lm & Ec). rewrite L2 in Lc.
    destruct (parts3 m c (d_nonce (letter 5))) as (P1 & P2 & P3 & _); auto. rewrite P1, P2, P3 in E.
    rewrite Ec in E.
    apply kseal_wrong in E; [discriminate E|]. intros Q. rewrite Q in L2. discriminate L2.
Qed.
Example C68_equal_priority_ex : holds named_exchange (mkParty 1 1 10) (mkParty 2 2 10) (create_session named_exchange (mkParty 1 1 10) (Some 10) 2 no_session) /\
  holds named_exchange (mkParty 2 2 10) (mkParty 1 1 10) (create_session named_exchange (mkParty 2 2 10) (Some 10) 1 no_session).
Proof. split; exists no_session; reflexivity. Qed.

(** ** C69 *)
(** Messages whose nonces differ in bytes 2 to 11 (they are drawn at random): no two packets that go over one connection are sealed
    with the same nonce, however many there are. *)
Theorem C69_user_partial : forall (K : Type) (seal : K -> list Z -> list Z -> list Z -> list Z * list Z) unseal s k ms ins sqs,
  ciphers seal unseal -> s_write s = Some k -> Forall message_memory ms -> NoDup (map (fun m => nonce_tail (fst m)) ms) ->
  (forall j i, length (fst (fst (ins j i))) = 16%nat) ->
  exists ws, sent_as seal s sqs (wire_packets ms ins) ws /\ NoDup (map nonce_on_wire ws).
Proof.
  intros K seal unseal s k ms ins sqs C W F N Hi. destruct (user_nonces ms ins F N Hi) as [Nd Dg]. unfold sent_as.
  assert (G : forall ds a, Forall datagram ds -> exists ws, map (fun i => send_encrypted seal s (sqs (a + i)%nat) (nth i ds [])) (seq 0 (length ds)) = map Some ws /\ map nonce_on_wire ws = map nonce_on_wire ds).
  { induction ds as [|d ds IH]; intros a Fd; [exists []; split; reflexivity|]. inversion Fd as [|? ? D1 D2]; subst.
    destruct (send_nonce seal unseal s k (sqs (a + 0)%nat) d C W D1) as (w & E & _ & En & _). destruct (IH (S a) D2) as (ws & Ew & Nw).
    exists (w :: ws). cbn [length seq map nth]. rewrite E, En, Nw. split; [|reflexivity]. f_equal. rewrite <- Ew. rewrite <- seq_shift, map_map. apply map_ext. intros i. cbn [nth]. do 2 f_equal. lia. }
  destruct (G _ 0%nat Dg) as (ws & Ew & Nw). exists ws. split; [exact Ew|]. rewrite Nw. exact Nd.
Qed.
(** ... and an encrypted user message is such a message: its nonce is the one that was drawn. *)
Theorem C69_user_message : forall f t fill pad seal unseal nonce n, fields_ok f -> bytes 28 fill -> cipher seal unseal -> bytes 12 nonce ->
  0 < np_tree_get_byte_size t <= 64800 -> enough_pieces (np_tree_get_byte_size t) 900 n ->
  let b := encrypt seal nonce (create f t fill pad) in message_memory (b, Z.to_nat n) /\ nonce_tail b = skipn 2 nonce.
Proof.
  intros f t fill pad seal unseal nonce n F Bf C Bn Hs En b. destruct (create_shape f t fill pad F Bf Hs) as (n' & body & E & H1 & En' & Lb & _).
  assert (n' = n) as ->. { destruct En as [A1 A2]. destruct En' as [B1 B2]. assert (0 < n) by lia. specialize (A2 ltac:(lia)). specialize (B2 ltac:(lia)). clear - A1 A2 B1 B2. nia. }
  fold (with_parts f n) in E. pose proof (header_len _ (fields_parts f n F)) as Lh.
  destruct (seal_open seal unseal nonce (header_mem (with_parts f n)) fill body C Bn (proj1 Bf) Lh) as (mac & c & EE & [Lm _] & Lc & _).
  unfold b. rewrite E, EE. destruct Bn as [Ln Fn].
  assert (E12 : firstn 12 (nonce ++ mac ++ header_mem (with_parts f n) ++ c) = nonce) by (rewrite firstn_app, firstn_all2, Ln, Nat.sub_diag, firstn_O, app_nil_r by lia; reflexivity).
  unfold message_memory, nonce_tail. cbn [fst snd]. rewrite E12. split; [|reflexivity]. split; [exact Fn|]. split; [rewrite !app_length; lia|lia].
Qed.

(** Whenever two datagrams with the same nonce go over one connection, whoever listens gets the difference of the texts. *)
Lemma same_nonce {K} (seal : K -> list Z -> list Z -> list Z -> list Z * list Z) unseal s k sq sq' d d' : ciphers seal unseal -> stream seal -> s_write s = Some k ->
  datagram d -> datagram d' -> nonce_on_wire d = nonce_on_wire d' ->
  exists w w', send_encrypted seal s sq d = Some w /\ send_encrypted seal s sq' d' = Some w' /\ nonce_on_wire w = nonce_on_wire w' /\
    forall i, (i < 1018)%nat -> Z.lxor (nth i (text w) 0) (nth i (text w') 0) = Z.lxor (nth i (text (set_instructions d sq (d_hop d))) 0) (nth i (text (set_instructions d' sq' (d_hop d'))) 0).
Proof.
  intros C (ks & St) W D D' E. destruct (send_nonce seal unseal s k sq d C W D) as (w & Ew & _ & Nw & Tw). destruct (send_nonce seal unseal s k sq' d' C W D') as (w' & Ew' & _ & Nw' & Tw').
  exists w, w'. split; [exact Ew|]. split; [exact Ew'|]. split; [congruence|]. intros i Hi. rewrite Tw, Tw', E.
  assert (Lt : forall x s0 h, datagram x -> length (text (set_instructions x s0 h)) = 1018%nat) by (intros x s0 h Dx; apply (slice_length _ 16 1018); pose proof (set_len x s0 h Dx) as Q; unfold datagram in Q; lia).
  rewrite !St by (rewrite Lt; auto). rewrite Z.lxor_assoc. rewrite (Z.lxor_comm (ks k (nonce_on_wire d') i)). rewrite Z.lxor_assoc, Z.lxor_nilpotent, Z.lxor_0_r. reflexivity.
Qed.

(** Messages of the protocol itself (joining, pings, acknowledgements, intents) are not encrypted for the receiver, and only that step
    draws a nonce (np_message.c:751): theirs is what the memory held before (np_message.c:604).  Two of them in memory with the same
    content (fresh pages, say) are sealed with the same key and nonce. *)
Theorem C69_internal_refuted : forall (K : Type) (seal : K -> list Z -> list Z -> list Z -> list Z * list Z) unseal s k f f' t t' fill pad pad' sq sq' mac_n mac_n',
  ciphers seal unseal -> stream seal -> s_write s = Some k -> fields_ok f -> fields_ok f' -> bytes 28 fill ->
  0 < np_tree_get_byte_size t <= 64800 -> 0 < np_tree_get_byte_size t' <= 64800 -> length mac_n = 16%nat -> length mac_n' = 16%nat ->
  let d := build_packet (create f t fill pad) 0 mac_n sq 0 in let d' := build_packet (create f' t' fill pad') 0 mac_n' sq' 0 in
  exists w w', send_encrypted seal s sq d = Some w /\ send_encrypted seal s sq' d' = Some w' /\ nonce_on_wire w = nonce_on_wire w' /\
    forall i, (i < 1018)%nat -> Z.lxor (nth i (text w) 0) (nth i (text w') 0) = Z.lxor (nth i (text (set_instructions d sq (d_hop d))) 0) (nth i (text (set_instructions d' sq' (d_hop d'))) 0).
Proof.
  intros K seal unseal s k f f' t t' fill pad pad' sq sq' mac_n mac_n' C St W F F' Bf Hs Hs' Lm Lm' d d'.
  assert (G : forall f t pad sq m, fields_ok f -> 0 < np_tree_get_byte_size t <= 64800 -> length m = 16%nat ->
    datagram (build_packet (create f t fill pad) 0 m sq 0) /\ nonce_on_wire (build_packet (create f t fill pad) 0 m sq 0) = firstn 12 fill).
  { clear - Bf. intros f t pad sq m F Hs Lm. destruct (create_shape f t fill pad F Bf Hs) as (n & body & E & H1 & _ & Lb & _). pose proof (header_len _ (fields_parts f n F)) as Lh. unfold with_parts in Lh.
    destruct Bf as [Lf Ff]. rewrite E. set (b := fill ++ _ ++ body).
    assert (Lbb : (124 + 0 * 900 + 900 <= length b)%nat) by (unfold b; rewrite !app_length, Lf, Lh, Lb; clear - H1; nia).
    assert (E12 : firstn 12 b = firstn 12 fill) by (unfold b; rewrite firstn_app, Lf; cbn [Nat.sub]; rewrite firstn_O, app_nil_r; reflexivity).
    assert (F12 : Forall (fun v => 0 <= v < 256) (firstn 12 fill)) by (rewrite <- (firstn_skipn 12 fill) in Ff; apply Forall_app in Ff; apply Ff).
    split; [apply packet_len; auto|]. unfold nonce_on_wire. rewrite wire_nonce by (rewrite ?E12; auto). change (nonce_of b) with (firstn 12 b). rewrite E12. change (Z.of_nat 0) with 0. rewrite Z.sub_0_r.
    assert (B12 : bytes 12 (firstn 12 fill)) by (split; [rewrite firstn_length; lia|exact F12]). destruct (split2 _ 12 B12 ltac:(lia)) as (E2 & R & _). unfold u16. rewrite Z.mod_small by lia. exact E2. }
  destruct (G f t pad sq mac_n F Hs Lm) as [D1 N1]. destruct (G f' t' pad' sq' mac_n' F' Hs' Lm') as [D2 N2].
  apply (same_nonce seal unseal s k sq sq' d d' C St W D1 D2). unfold d, d'. congruence.
Qed.

(** A packet that is sent again over the same connection (forwarded twice, or repeated because no acknowledgement came) keeps its nonce,
    but gets a new sequence number: same key and nonce for different texts. *)
Theorem C69_repeat_refuted : forall (K : Type) (seal : K -> list Z -> list Z -> list Z -> list Z * list Z) unseal s k d sq sq',
  ciphers seal unseal -> stream seal -> s_write s = Some k -> datagram d -> 0 <= sq < 4294967296 -> 0 <= sq' < 4294967296 -> sq <> sq' ->
  exists w w', send_encrypted seal s sq d = Some w /\ send_encrypted seal s sq' d = Some w' /\ nonce_on_wire w = nonce_on_wire w' /\
    text (set_instructions d sq (d_hop d)) <> text (set_instructions d sq' (d_hop d)) /\
    forall i, (i < 1018)%nat -> Z.lxor (nth i (text w) 0) (nth i (text w') 0) = Z.lxor (nth i (text (set_instructions d sq (d_hop d))) 0) (nth i (text (set_instructions d sq' (d_hop d))) 0).
Proof.
  intros K seal unseal s k d sq sq' C St W D R R' N. destruct (same_nonce seal unseal s k sq sq' d d C St W D D eq_refl) as (w & w' & A & B & En & X).
  exists w, w'. split; [exact A|]. split; [exact B|]. split; [exact En|]. split; [|exact X]. intros E. apply N.
  assert (G : forall q, 0 <= q < 4294967296 -> unle (firstn 4 (text (set_instructions d q (d_hop d)))) = q).
  { intros q Rq. unfold text, set_instructions. unfold datagram in D. rewrite skipn_exact by (rewrite slice_length; lia). rewrite firstn_firstn. change (Nat.min 4 1018) with 4%nat.
    rewrite firstn_app, firstn_all2, le_len, Nat.sub_diag, firstn_O, app_nil_r by (rewrite le_len; lia). apply unle_le. change (256 ^ Z.of_nat 4) with 4294967296. lia. }
  rewrite <- (G sq R), <- (G sq' R'), E. reflexivity.
Qed.
Definition xseal (k : Z) (nonce h p : list Z) : list Z * list Z := (repeat 9 16, map (fun b => Z.lxor b (Z.lxor k (hd 0 nonce))) p).
Definition xunseal (k : Z) (nonce h mac c : list Z) : option (list Z) := Some (map (fun b => Z.lxor b (Z.lxor k (hd 0 nonce))) c).
Example C69_laws_ex : ciphers xseal xunseal /\ stream xseal.
Proof.
  split.
  - intros k nonce h p. unfold cipher, xseal. split; [split; [reflexivity|repeat constructor; lia]|]. split; [apply map_length|]. unfold xunseal. f_equal. rewrite map_map. rewrite <- (map_id p) at 2. apply map_ext. intros b.
    rewrite Z.lxor_assoc, Z.lxor_nilpotent, Z.lxor_0_r. reflexivity.
  - exists (fun k nonce _ => Z.lxor k (hd 0 nonce)). intros k nonce h p i Hi. unfold xseal. cbn [snd].
    rewrite (nth_indep _ 0 (Z.lxor 0 (Z.lxor k (hd 0 nonce)))) by (rewrite map_length; auto). apply (map_nth (fun b => Z.lxor b (Z.lxor k (hd 0 nonce)))).
Qed.
Example C69_user_ex : let ms := [(repeat 1 1924, 2%nat); (repeat 2 1024, 1%nat)] in
  Forall message_memory ms /\ NoDup (map (fun m => nonce_tail (fst m)) ms) /\ exists ws, sent_as xseal (mkS true (Some 5) (Some 6)) Z.of_nat (wire_packets ms (fun _ => some_ins)) ws /\ NoDup (map nonce_on_wire ws) /\ length ws = 3%nat.
Proof.
  cbv zeta. set (ms := [(repeat 1 1924, 2%nat); (repeat 2 1024, 1%nat)]).
  assert (A : Forall message_memory ms).
  { unfold ms. constructor; [|constructor; [|constructor]]; (split; [|split]); cbn [fst snd]; try (rewrite repeat_length; reflexivity); try lia; cbn [repeat firstn]; repeat constructor; lia. }
  assert (B : NoDup (map (fun m => nonce_tail (fst m)) ms)).
  { constructor; [|constructor; [intros []|constructor]]. intros [E|[]]. discriminate E. }
  split; [exact A|]. split; [exact B|].
  destruct (C69_user_partial Z xseal xunseal (mkS true (Some 5) (Some 6)) 6 ms (fun _ => some_ins) Z.of_nat) as (ws & S1 & N); auto; try apply C69_laws_ex.
  exists ws. split; [exact S1|]. split; [exact N|]. apply (f_equal (@length _)) in S1. rewrite !map_length, seq_length in S1. rewrite <- S1. reflexivity.
Qed.

Print Assumptions C68_readable_partial.
Print Assumptions C68_path_partial.
Print Assumptions C68_delivery_partial.
Print Assumptions C68_in_time.
Print Assumptions C68_authentic.
Print Assumptions C68_equal_priority_refuted.
Print Assumptions C68_replay_refuted.
Print Assumptions C69_user_partial.
Print Assumptions C69_user_message.
Print Assumptions C69_internal_refuted.
Print Assumptions C69_repeat_refuted.
