(** C70, C71: the keys of a channel. *)
From Verif Require Import Base Message_Model Wire_Spec Secure_Model Secure_Spec Agree_Model Agree_Spec Agree_Proofs.

(** C70: whenever the sender of one node and the receiver of another one both have a key for what is addressed to an id, it is the same key, and what was encrypted
    is decrypted; for all histories of intents, key messages and deliveries.  Missing: two ends that were not announced (below), messages that wait (C56) *)
Theorem C70_agree_partial : forall K (x : exchange K) pub half kdec nodes who ND SF RF h cs cr i j id k k' seal unseal nonce m,
  exchange_law x pub half -> ciphers seal unseal -> set_up ND SF RF pub nodes who cs cr -> distinct_ids SF RF -> (forall e, In e h -> proper ND SF RF who e) -> one_key h ->
  let y := run x kdec nodes who h (start cs cr) in
  encrypts y i id k -> decrypts y j id k' -> k = k' /\ let '(mac, c) := seal k nonce [] m in unseal k' nonce [] mac c = Some m.
Proof.
  intros K x pub half kdec nodes who ND SF RF h cs cr i j id k k' seal unseal nonce m L C (Hn & Hs) Hd Hp O y E D.
  assert (k = k') as <-. { eapply (agree half nodes who ND SF RF h Hd y i j id); eauto. apply (run_inv x pub half L kdec nodes who ND SF RF h Hn Hd Hp); auto. apply start_inv; auto. }
  split; [reflexivity|]. pose proof (C k nonce [] m) as Q. destruct (seal k nonce [] m). tauto.
Qed.
(** a sender that has a key and gets the intent of a receiver for the first time tells it the key: once what waited is sent and the message is delivered, the receiver
    has it, for good; whatever else happens, unless the sender loses the intent before *)
Theorem C70_key_arrives_partial : forall K (x : exchange K) pub half kdec nodes who ND SF RF h h2 cs cr i j f g w,
  exchange_law x pub half -> set_up ND SF RF pub nodes who cs cr -> distinct_ids SF RF -> (forall e, In e (h ++ SenderGets i g false :: h2) -> proper ND SF RF who e) -> one_key (h ++ SenderGets i g false :: h2) -> who g = j ->
  let y := run x kdec nodes who h (start cs cr) in
  c_cur (y_send y i) = f -> encrypts y i f w -> (forall k, ~ encrypts y i (Z.lxor f g) k) ->
  ~ In (SenderGets i g true) h2 -> (length (c_out (y_send y i)) < flushes i h2)%nat ->
  exists n, forall h3, let y2 := run x kdec nodes who (SenderGets i g false :: h2) y in
    ready y2 j f g -> (forall e, In e (Deliver j n :: h3) -> proper ND SF RF who e) -> one_key (h ++ SenderGets i g false :: h2 ++ h3) ->
    decrypts (run x kdec nodes who (Deliver j n :: h3) y2) j f w.
Proof.
  intros K x pub half kdec nodes who ND SF RF h h2 cs cr i j f g w L (Hn & Hs) Hd Hp O Gw y C Ew Ni Nd Fl.
  set (H := h ++ SenderGets i g false :: h2) in *. assert (Ih : forall e, In e h -> In e H) by (intros; apply in_or_app; auto).
  assert (Ie : In (SenderGets i g false) H) by (apply in_or_app; right; left; auto). assert (I2 : forall e, In e h2 -> In e H) by (intros; apply in_or_app; right; right; auto).
  pose proof (run_inv x pub half L kdec nodes who ND SF RF H Hn Hd Hp h _ (start_inv half nodes who ND SF RF H cs cr Hs) Ih) as V. fold y in V.
  destruct (Hp _ Ie) as (Ndi & G). destruct (v_scur _ _ _ _ _ _ _ _ V i Ndi) as (F & Fw). rewrite C in F, Fw.
  pose proof (step_inv x pub half L kdec nodes who ND SF RF H Hn Hd Hp y _ V Ie) as V1.
  destruct (own_write half nodes who ND SF RF H Hd y i f w V F Ew) as (r & Nw & e & Ef & Eb).
  assert (N0 : find (initial_id f g) (c_tree (y_send y i)) = None).
  { destruct (find (initial_id f g) (c_tree (y_send y i))) eqn:E; auto. exfalso. destruct (initial_writes half nodes who ND SF RF H Hd y i f g V F G) as (k & Q); [congruence|]. exact (Ni k Q). }
  set (y1 := step x kdec nodes who (SenderGets i g false) y) in *.
  assert (E1 : y_send y1 i = mkC f (put (initial_id f g) (mkE KInitial (sess half nodes i (who g) true)) (put (private_id f g) (mkE KPrivate (sess half nodes i (who g) false)) (c_tree (y_send y i)))) (c_out (y_send y i) ++ [(initial_id f g, [(f, w)])])).
  { unfold y1. cbn [step y_send]. rewrite at_same, (sender_gets_eq x pub half L nodes who ND SF RF H Hn Hd) by auto. rewrite C, N0, Ef, Eb. reflexivity. }
  assert (Sent : In (initial_id f g, half (snd (nodes (who g))) (snd (nodes i)) false, [(f, w)]) (y_net (run x kdec nodes who h2 y1))).
  { apply (is_sent x pub half L kdec nodes who ND SF RF H Hn Hd Hp) with (p := length (c_out (y_send y i))); auto.
    - rewrite E1. cbn [c_out]. rewrite nth_error_app2, Nat.sub_diag by lia. reflexivity.
    - rewrite E1. cbn [c_tree]. rewrite find_put_same. discriminate. }
  apply In_nth_error in Sent. destruct Sent as (n & En). exists n. intros h3 y2 Rd P3 O3.
  set (H3 := h ++ SenderGets i g false :: h2 ++ Deliver j n :: h3).
  assert (Hp3 : forall e, In e H3 -> proper ND SF RF who e).
  { intros e' X. apply in_app_iff in X. destruct X as [X|[X|X]]; [apply Hp, Ih, X|rewrite <- X; apply Hp, Ie|]. apply in_app_iff in X. destruct X as [X|X]; [apply Hp, I2, X|apply P3, X]. }
  assert (I3 : forall e, In e (h ++ SenderGets i g false :: h2) -> In e H3).
  { intros e' X. apply in_app_iff in X. apply in_or_app. destruct X as [X|[X|X]]; [left; auto|right; left; auto|right; right; apply in_or_app; auto]. }
  assert (O3' : one_key H3).
  { intros a b c d a' c' d' X X'. assert (Q : forall a b c d, In (NewSender a b c d) H3 -> In (NewSender a b c d) (h ++ SenderGets i g false :: h2 ++ h3)); [|eapply O3; eauto].
    clear. intros a b c d X. unfold H3 in X. rewrite in_app_iff in X |- *. destruct X as [X|[X|X]]; [auto|discriminate|]. apply in_app_iff in X. right. right. apply in_or_app. destruct X as [X|[X|X]]; [auto|discriminate|auto]. }
  eapply (lands x pub half L kdec nodes who ND SF RF H3 Hn Hd Hp3) with (b := [(f, w)]) (f := f) (g := g) (i := i); eauto.
  - apply (run_inv x pub half L kdec nodes who ND SF RF H3 Hn Hd Hp3); [|intros e' X; apply I3; apply in_or_app; right; auto].
    apply (run_inv x pub half L kdec nodes who ND SF RF H3 Hn Hd Hp3); [apply start_inv; auto|intros; apply I3, Ih; auto].
  - left. reflexivity.
  - intros e' X. apply in_or_app. right. right. apply in_or_app. right. exact X.
Qed.
(** the same for a new intent of the sender, and every receiver whose intent it has at that time *)
Theorem C70_new_key_arrives_partial : forall K (x : exchange K) pub half kdec nodes who ND SF RF h h2 cs cr i j f g f' r w,
  exchange_law x pub half -> set_up ND SF RF pub nodes who cs cr -> distinct_ids SF RF -> (forall e, In e (h ++ NewSender i f' r w :: h2) -> proper ND SF RF who e) -> one_key (h ++ NewSender i f' r w :: h2) -> who g = j -> SF f -> RF g -> who f = i ->
  let y := run x kdec nodes who h (start cs cr) in
  (exists k, encrypts y i (Z.lxor f g) k) ->
  ~ In (SenderGets i g true) h2 -> (length (c_out (y_send (step x kdec nodes who (NewSender i f' r w) y) i)) <= flushes i h2)%nat ->
  exists n, forall h3, let y2 := run x kdec nodes who (NewSender i f' r w :: h2) y in
    ready y2 j f g -> (forall e, In e (Deliver j n :: h3) -> proper ND SF RF who e) -> one_key (h ++ NewSender i f' r w :: h2 ++ h3) ->
    decrypts (run x kdec nodes who (Deliver j n :: h3) y2) j f' w.
Proof.
  intros K x pub half kdec nodes who ND SF RF h h2 cs cr i j f g f' r w L (Hn & Hs) Hd Hp O Gw F G Fw y (k & e & E & _) Nd Fl.
  set (H := h ++ NewSender i f' r w :: h2) in *. assert (Ih : forall e, In e h -> In e H) by (intros; apply in_or_app; auto).
  assert (Ie : In (NewSender i f' r w) H) by (apply in_or_app; right; left; auto). assert (I2 : forall e, In e h2 -> In e H) by (intros; apply in_or_app; right; right; auto).
  pose proof (run_inv x pub half L kdec nodes who ND SF RF H Hn Hd Hp h _ (start_inv half nodes who ND SF RF H cs cr Hs) Ih) as V. fold y in V.
  destruct (Hp _ Ie) as (Ndi & F' & Fw'). pose proof (step_inv x pub half L kdec nodes who ND SF RF H Hn Hd Hp y _ V Ie) as V1.
  set (y1 := step x kdec nodes who (NewSender i f' r w) y) in *. change (Z.lxor f g) with (initial_id f g) in E.
  assert (E1 : find (initial_id f g) (c_tree (y_send y1 i)) <> None).
  { unfold y1. cbn [step y_send]. rewrite at_same. cbn [new_own c_tree]. rewrite find_put_new, E. discriminate. }
  assert (Io : In (initial_id f g, [(f', w)]) (c_out (y_send y1 i))).
  { unfold y1. cbn [step y_send]. rewrite at_same. cbn [new_own c_out]. apply in_or_app. right. pose proof (find_in _ _ _ E) as Ein.
    destruct (v_send _ _ _ _ _ _ _ _ V _ _ _ Ein) as [(r1 & w1 & F1 & _) | [(f1 & g1 & F1 & _ & G1 & _ & Ei & _) | (f1 & g1 & F1 & Fw1 & G1 & _ & Ei & Ee)]].
    - exfalso. exact (ids_i SF RF Hd _ _ _ F G (or_introl F1) eq_refl).
    - exfalso. exact (ids_pi SF RF Hd _ _ _ _ F1 G1 F G (eq_sym Ei)).
    - apply in_map_iff. exists (initial_id f g, e). split; [reflexivity|]. apply filter_In. split.
      + unfold put_new. destruct (find f' (c_tree (y_send y i))); [|right]; exact Ein.
      + cbn [fst snd]. rewrite Ee. cbn [e_kind]. rewrite andb_true_r. apply negb_true_iff, Z.eqb_neq. exact (ids_i SF RF Hd _ _ _ F G (or_introl F')). }
  apply In_nth_error in Io. destruct Io as (p & Ep).
  assert (Sent : In (initial_id f g, half (snd (nodes (who g))) (snd (nodes i)) false, [(f', w)]) (y_net (run x kdec nodes who h2 y1))).
  { apply (is_sent x pub half L kdec nodes who ND SF RF H Hn Hd Hp) with (p := p); auto. assert (p < length (c_out (y_send y1 i)))%nat by (apply nth_error_Some; congruence). lia. }
  apply In_nth_error in Sent. destruct Sent as (n & En). exists n. intros h3 y2 Rd P3 O3.
  set (H3 := h ++ NewSender i f' r w :: h2 ++ Deliver j n :: h3).
  assert (Hp3 : forall e, In e H3 -> proper ND SF RF who e).
  { intros e' X. apply in_app_iff in X. destruct X as [X|[X|X]]; [apply Hp, Ih, X|rewrite <- X; apply Hp, Ie|]. apply in_app_iff in X. destruct X as [X|X]; [apply Hp, I2, X|apply P3, X]. }
  assert (I3 : forall e, In e (h ++ NewSender i f' r w :: h2) -> In e H3).
  { intros e' X. apply in_app_iff in X. apply in_or_app. destruct X as [X|[X|X]]; [left; auto|right; left; auto|right; right; apply in_or_app; auto]. }
  assert (O3' : one_key H3).
  { intros a b c d a' c' d' X X'. assert (Q : forall a b c d, In (NewSender a b c d) H3 -> In (NewSender a b c d) (h ++ NewSender i f' r w :: h2 ++ h3)); [|eapply O3; eauto].
    clear. intros a b c d X. unfold H3 in X. rewrite in_app_iff in X |- *. destruct X as [X|[X|X]]; [auto|right; left; auto|]. apply in_app_iff in X. right. right. apply in_or_app. destruct X as [X|[X|X]]; [auto|discriminate|auto]. }
  eapply (lands x pub half L kdec nodes who ND SF RF H3 Hn Hd Hp3) with (b := [(f', w)]) (f := f) (g := g) (i := i) (r := r); eauto.
  - apply (run_inv x pub half L kdec nodes who ND SF RF H3 Hn Hd Hp3); [|intros e' X; apply I3; apply in_or_app; right; auto].
    apply (run_inv x pub half L kdec nodes who ND SF RF H3 Hn Hd Hp3); [apply start_inv; auto|intros; apply I3, Ih; auto].
  - left. reflexivity.
  - intros e' X. apply in_or_app. right. right. apply in_or_app. right. exact X.
Qed.

(** C71: the keys two nodes agreed on are with these two nodes only *)
Theorem C71_private_partial : forall K (x : exchange K) pub half kdec nodes who ND SF RF h cs cr n i j d,
  exchange_law x pub half -> set_up ND SF RF pub nodes who cs cr -> distinct_ids SF RF -> (forall e, In e h -> proper ND SF RF who e) -> fresh_keys half h -> (forall a b, snd (nodes a) = snd (nodes b) -> a = b) ->
  has_key (run x kdec nodes who h (start cs cr)) n (half (snd (nodes i)) (snd (nodes j)) d) -> n = i \/ n = j.
Proof.
  intros K x pub half kdec nodes who ND SF RF h cs cr n i j d L (Hn & Hs) Hd Hp Fk Inj X.
  eapply (private_keys x pub half L nodes who ND SF RF h); eauto. apply (run_inv x pub half L kdec nodes who ND SF RF h Hn Hd Hp); auto. apply start_inv; auto.
Qed.
(** the key of an intent of a sender is with this node, and with nodes whose intent the sender got *)
Theorem C71_shared_partial : forall K (x : exchange K) pub half kdec nodes who ND SF RF h cs cr n i f r w,
  exchange_law x pub half -> set_up ND SF RF pub nodes who cs cr -> distinct_ids SF RF -> (forall e, In e h -> proper ND SF RF who e) -> fresh_keys half h -> In (NewSender i f r w) h ->
  has_key (run x kdec nodes who h (start cs cr)) n w -> n = i \/ exists g, who g = n /\ In (SenderGets i g false) h.
Proof.
  intros K x pub half kdec nodes who ND SF RF h cs cr n i f r w L (Hn & Hs) Hd Hp Fk N X.
  destruct (shared_keys half nodes who ND SF RF h Hp (run x kdec nodes who h (start cs cr)) n i f r w Fk) as [Q|(_ & Q)]; auto.
  apply (run_inv x pub half L kdec nodes who ND SF RF h Hn Hd Hp); auto. apply start_inv; auto.
Qed.
(** a node whose one intent the sender lost, and did not get again, never has a key that was made afterwards.  Missing: the sender must not have announced another intent of
    its own in between (below) *)
Theorem C71_removed_partial : forall K (x : exchange K) pub half kdec nodes who ND SF RF h1 h2 cs cr i j g f r w,
  exchange_law x pub half -> set_up ND SF RF pub nodes who cs cr -> distinct_ids SF RF -> let h := h1 ++ SenderGets i g true :: h2 in
  (forall e, In e h -> proper ND SF RF who e) -> fresh_keys half h -> i <> j -> who g = j ->
  (forall g', In (SenderGets i g' false) h -> who g' = j -> g' = g) -> ~ In (SenderGets i g false) h2 -> (forall f, ~ In (AnnounceSender i f) h) ->
  In (NewSender i f r w) h2 -> (forall r' w', ~ In (NewSender i f r' w') h1) ->
  ~ has_key (run x kdec nodes who h (start cs cr)) j w.
Proof.
  intros K x pub half kdec nodes who ND SF RF h1 h2 cs cr i j g f r w L (Hn & Hs) Hd h Hp Fk Nij Gw Ng Nn Na N No X.
  assert (Ne : In (NewSender i f r w) h) by (apply in_or_app; right; right; auto). assert (Nr : In (SenderGets i g true) h) by (apply in_or_app; right; left; auto).
  destruct (Hp _ Ne) as (Ndi & F & Fw). destruct (Hp _ Nr) as (_ & G). destruct (Hs i Ndi) as ((F0 & F0w) & _).
  assert (Q : find f (c_tree (y_recv (run x kdec nodes who h (start cs cr)) j)) = None).
  { apply (revoked x pub half L kdec nodes who ND SF RF Hn Hd h1 h2 i j g (cs i)); auto. intros (r' & w' & Y). exact (No _ _ Y). }
  destruct (shared_keys half nodes who ND SF RF h Hp (run x kdec nodes who h (start cs cr)) j i f r w Fk) as [E|(E & _)]; auto.
  apply (run_inv x pub half L kdec nodes who ND SF RF h Hn Hd Hp); auto. apply start_inv; auto.
Qed.

(** ** a channel with three nodes; keys by name, random keys by number *)
Notation key := ((Z * Z * bool) + Z)%type.
Definition key_dec : forall a b : key, {a = b} + {a <> b}.
Proof. decide equality; [|apply Z.eq_dec]. decide equality; [apply Bool.bool_dec|]. decide equality; apply Z.eq_dec. Defined.
Definition kx : exchange key :=
  mkX (fun _ pk peer => Some (inl (pk, peer, false), inl (pk, peer, true))) (fun _ pk peer => Some (inl (peer, pk, true), inl (peer, pk, false))).
Definition named (c s : Z) (d : bool) : key := inl (c, s, d).
Lemma kx_law : exchange_law kx (fun sk => sk) named.
Proof. constructor; try reflexivity. unfold named. intros c s d c' s' d' E. injection E as -> -> ->. auto. Qed.
Definition three (i : Z) : Prop := 1 <= i <= 3.
Definition senders (f : Z) : Prop := In f [196; 474; 696; 159; 619].
Definition receivers (g : Z) : Prop := In g [319; 138; 188].
Definition maker (f : Z) : Z := if existsb (Z.eqb f) [196; 474; 696; 319] then 1 else if existsb (Z.eqb f) [159; 138] then 2 else 3.
Definition keys_of (n : Z) : Z * Z := (n, n).
Definition first_s (i : Z) : Z := if i =? 1 then 196 else if i =? 2 then 159 else 619.
Definition first_r (i : Z) : Z := if i =? 1 then 319 else if i =? 2 then 138 else 188.
Lemma three_cases i : three i -> i = 1 \/ i = 2 \/ i = 3. Proof. unfold three. lia. Qed.
Lemma three_set_up : set_up three senders receivers (fun sk => sk) keys_of maker first_s first_r.
Proof. split; [reflexivity|]. intros i X. destruct (three_cases i X) as [-> | [-> | ->]]; cbn; intuition. Qed.
Ltac each H := repeat (destruct H as [<- | H]; [|]); try contradiction.
Lemma three_ids : distinct_ids senders receivers.
Proof.
  assert (D : forall f g, senders f -> receivers g -> f <> g). { intros f g F G. unfold senders, receivers in *. each F; each G; discriminate. }
  split; [exact D|]. intros f g F G. split.
  - intros f' g' F' G'. 
    assert (Q : forallb (fun f => forallb (fun g => forallb (fun f' => forallb (fun g' =>
      (negb ((f + g) mod 2 ^ 256 =? (f' + g') mod 2 ^ 256) || ((f =? f') && (g =? g'))) && (negb (Z.lxor f g =? Z.lxor f' g') || ((f =? f') && (g =? g'))) && negb ((f + g) mod 2 ^ 256 =? Z.lxor f' g'))
      [319; 138; 188]) [196; 474; 696; 159; 619]) [319; 138; 188]) [196; 474; 696; 159; 619] = true) by (vm_compute; reflexivity).
    pose proof (proj1 (forallb_forall _ _) Q f F) as Q1. cbv beta in Q1. pose proof (proj1 (forallb_forall _ _) Q1 g G) as Q2. cbv beta in Q2.
    pose proof (proj1 (forallb_forall _ _) Q2 f' F') as Q3. cbv beta in Q3. pose proof (proj1 (forallb_forall _ _) Q3 g' G') as Q4. cbv beta in Q4. clear Q Q1 Q2 Q3.
    apply andb_true_iff in Q4. destruct Q4 as (Q4 & Q5). apply andb_true_iff in Q4. destruct Q4 as (Q3 & Q4). apply negb_true_iff, Z.eqb_neq in Q5.
    apply orb_true_iff in Q3. apply orb_true_iff in Q4. split; [|split; [|exact Q5]].
    + intros E. destruct Q3 as [Q3|Q3]; [apply negb_true_iff, Z.eqb_neq in Q3; contradiction|]. apply andb_true_iff in Q3. destruct Q3 as (A & B). apply Z.eqb_eq in A. apply Z.eqb_eq in B. auto.
    + intros E. destruct Q4 as [Q4|Q4]; [apply negb_true_iff, Z.eqb_neq in Q4; contradiction|]. apply andb_true_iff in Q4. destruct Q4 as (A & B). apply Z.eqb_eq in A. apply Z.eqb_eq in B. auto.
  - intros h Hh. assert (Q : forallb (fun f => forallb (fun g => forallb (fun h => negb ((f + g) mod 2 ^ 256 =? h) && negb (Z.lxor f g =? h)) [196; 474; 696; 159; 619; 319; 138; 188]) [319; 138; 188]) [196; 474; 696; 159; 619] = true) by (vm_compute; reflexivity).
    assert (Ih : In h [196; 474; 696; 159; 619; 319; 138; 188]). { unfold senders, receivers in Hh. cbn [In] in *. tauto. }
    pose proof (proj1 (forallb_forall _ _) Q f F) as Q1. cbv beta in Q1. pose proof (proj1 (forallb_forall _ _) Q1 g G) as Q2. cbv beta in Q2.
    pose proof (proj1 (forallb_forall _ _) Q2 h Ih) as Q3. cbv beta in Q3. apply andb_true_iff in Q3. destruct Q3 as (A & B). apply negb_true_iff, Z.eqb_neq in A. apply negb_true_iff, Z.eqb_neq in B. auto.
Qed.
(** node 1 sends, nodes 2 and 3 receive; both get the key; node 1 makes a second intent, announces it, and loses the intent of node 2 *)
Definition meet : list (ev key) :=
  [NewSender 1 196 (inr 1) (inr 2); NewReceiver 2 138 (inr 3) (inr 4); ReceiverGets 2 196 false; ReceiverGets 3 196 false; SenderGets 1 138 false; SenderGets 1 188 false; Flush 1; Flush 1; Deliver 2 0; Deliver 3 1].
Definition renew : list (ev key) := [NewSender 1 474 (inr 5) (inr 6); AnnounceSender 1 474].
Definition again : list (ev key) := [NewSender 1 696 (inr 7) (inr 8); Flush 1; Flush 1; Flush 1; Flush 1; Deliver 2 0; Deliver 2 1; Deliver 2 2; Deliver 2 3; Deliver 2 4; Deliver 2 5].
Definition after (h : list (ev key)) : sys key := run kx key_dec keys_of maker h (start first_s first_r).
Ltac proper_list := intros e X; repeat (destruct X as [<- | X]; [cbn; unfold three, senders, receivers; cbn; repeat split; try lia; try reflexivity; auto 12|]); contradiction.
Lemma meet_proper : forall e, In e meet -> proper three senders receivers maker e. Proof. proper_list. Qed.
Lemma long_proper : forall e, In e (meet ++ renew ++ SenderGets 1 138 true :: again) -> proper three senders receivers maker e. Proof. proper_list. Qed.
Ltac one_list := intros i f r w i' r' w' X X'; cbn in X, X'; repeat (destruct X as [X|X]; [try discriminate X|]); try contradiction; repeat (destruct X' as [X'|X']; [try discriminate X'|]); try contradiction; congruence.
Lemma long_one : one_key (meet ++ renew ++ SenderGets 1 138 true :: again). Proof. one_list. Qed.
Lemma meet_one : one_key meet. Proof. one_list. Qed.
Lemma long_fresh : fresh_keys named (meet ++ renew ++ SenderGets 1 138 true :: again).
Proof.
  constructor.
  - intros k (i & f & o & X) c s d ->. unfold named in X. cbn in X. repeat (destruct X as [X|X]; [repeat (destruct X as [X|X]; [discriminate X|]); contradiction|]). repeat (destruct X as [X|X]; [discriminate X|]); contradiction.
  - intros i f r w i' f' r' w' X X'. cbn in X, X'; repeat (destruct X as [X|X]; [try discriminate X|]); try contradiction; repeat (destruct X' as [X'|X']; [try discriminate X'|]); try contradiction;
      injection X as <- <- <- <-; injection X' as <- <- <- <-; split; try discriminate; auto.
  - intros i f r w i' f' r' w' X X'. cbn in X, X'; repeat (destruct X as [X|X]; [try discriminate X|]); try contradiction; repeat (destruct X' as [X'|X']; [try discriminate X'|]); try contradiction;
      injection X as <- <- <- <-; injection X' as <- <- <- <-; split; discriminate.
Qed.
Example C70_agree_ex : set_up three senders receivers (fun sk => sk) keys_of maker first_s first_r /\ distinct_ids senders receivers /\ (forall e, In e meet -> proper three senders receivers maker e) /\ one_key meet /\
  encrypts (after meet) 1 196 (inr 2) /\ decrypts (after meet) 2 196 (inr 2) /\ decrypts (after meet) 3 196 (inr 2) /\
  encrypts (after meet) 1 (196 + 138) (inl (1, 2, true)) /\ decrypts (after meet) 2 (196 + 138) (inl (1, 2, true)).
Proof.
  split; [exact three_set_up|]. split; [exact three_ids|]. split; [exact meet_proper|]. split; [exact meet_one|].
  split; [eexists; split; vm_compute; reflexivity|]. split; [eexists; split; vm_compute; reflexivity|]. split; [eexists; split; vm_compute; reflexivity|]. split; eexists; split; vm_compute; reflexivity.
Qed.
(** hypotheses of C70_key_arrives_partial: node 1 gets the intent of node 2, and sends *)
Example C70_key_arrives_ex : let h := firstn 3 meet in let y := after h in
  c_cur (y_send y 1) = 196 /\ encrypts y 1 196 (inr 2) /\ (forall k, ~ encrypts y 1 (Z.lxor 196 138) k) /\ (length (c_out (y_send y 1)) < flushes 1 [Flush (K := key) 1])%nat /\
  ready (run kx key_dec keys_of maker [SenderGets 1 138 false; Flush 1] y) 2 196 138.
Proof. repeat split; try (vm_compute; reflexivity); [eexists; split; vm_compute; reflexivity| |vm_compute; discriminate]. intros k (e & E & _). vm_compute in E. discriminate. Qed.
(** what C71_removed_partial needs can be met: without the second intent *)
Example C71_removed_ex : (forall e, In e (meet ++ SenderGets 1 138 true :: again) -> proper three senders receivers maker e) /\ has_key (after (meet ++ SenderGets 1 138 true :: again)) 1 (inr 8) /\ ~ has_key (after (meet ++ SenderGets 1 138 true :: again)) 2 (inr 8).
Proof.
  split; [proper_list|]. split; [exists 696; eexists; split; [left; vm_compute; reflexivity|vm_compute; auto]|].
  assert (Sub : forall e, In e (meet ++ SenderGets 1 138 true :: again) -> In e (meet ++ renew ++ SenderGets 1 138 true :: again)). { intros e X. rewrite !in_app_iff in *. tauto. }
  refine (C71_removed_partial key kx (fun sk => sk) named key_dec keys_of maker three senders receivers meet again first_s first_r 1 2 138 696 (inr 7) (inr 8) kx_law three_set_up three_ids _ _ _ _ _ _ _ _ _).
  - proper_list.
  - destruct long_fresh as [A B C]. constructor.
    + intros k (i & f & o & X). apply A. exists i, f, o. intuition.
    + intros. eapply B; eauto.
    + intros. eapply C; eauto.
  - discriminate.
  - reflexivity.
  - intros g' X Mg. cbn in X. repeat (destruct X as [X|X]; [try discriminate X; injection X as <-; auto; discriminate Mg|]). contradiction.
  - cbn. intuition discriminate.
  - cbn. intuition discriminate.
  - left. reflexivity.
  - cbn. intuition discriminate.
Qed.

(** C71 is false when the sender has announced another intent of its own since it got the intent: losing the intent then removes sessions of the new pair of intents, which
    are not there, and keeps the old ones, over which the next key is sent to the removed node *)
Theorem C71_renewed_refuted : exists h1 h2,
  (forall e, In e (h1 ++ SenderGets 1 138 true :: h2) -> proper three senders receivers maker e) /\ fresh_keys named (h1 ++ SenderGets 1 138 true :: h2) /\
  (forall g', In (SenderGets 1 g' false) (h1 ++ SenderGets 1 138 true :: h2) -> maker g' = 2 -> g' = 138) /\ ~ In (SenderGets 1 138 false) h2 /\
  In (NewSender 1 696 (inr 7) (inr 8)) h2 /\ (forall r w, ~ In (NewSender 1 696 r w) h1) /\
  decrypts (run kx key_dec keys_of maker (h1 ++ SenderGets 1 138 true :: h2) (start first_s first_r)) 2 696 (inr 8).
Proof.
  exists (meet ++ renew), again. rewrite <- app_assoc. split; [exact long_proper|]. split; [exact long_fresh|]. split.
  { intros g' X Mg. cbn in X. repeat (destruct X as [X|X]; [try discriminate X; injection X as <-; auto; discriminate Mg|]). contradiction. }
  split; [cbn; intuition discriminate|]. split; [left; reflexivity|]. split; [cbn; intuition discriminate|].
  eexists. split; vm_compute; reflexivity.
Qed.
(** C70 is false for a receiver that gets the intent of a sender before its own intent was announced (the fingerprint is zero then): both ids of the pair are the id of
    the intent of the sender, so the receiver decrypts messages of the sender to all receivers with a key for two *)
Theorem C70_unannounced_refuted : exists h k,
  (forall e, In e h -> proper three senders receivers maker e) /\ let y := run kx key_dec keys_of maker h (start first_s (fun _ => 0)) in
  encrypts y 1 196 (inr 2) /\ decrypts y 2 196 k /\ k <> inr 2.
Proof.
  exists [NewSender 1 196 (inr 1) (inr 2); ReceiverGets 2 196 false]. exists (inl (2, 1, false)). split; [proper_list|]. cbv zeta.
  split; [eexists; split; vm_compute; reflexivity|]. split; [eexists; split; vm_compute; reflexivity|]. discriminate.
Qed.

Print Assumptions C70_agree_partial.
Print Assumptions C70_key_arrives_partial.
Print Assumptions C70_new_key_arrives_partial.
Print Assumptions C71_private_partial.
Print Assumptions C71_shared_partial.
Print Assumptions C71_removed_partial.
Print Assumptions C71_renewed_refuted.
Print Assumptions C70_unannounced_refuted.
