(** Proofs for the routing filter. *)
From Verif Require Import Base Dhkey_Model Bloom_Model Bloom_Spec Bloom_Std Bloom_Decay Bloom_Count.

Definition addr_of (c : Z * Z) : Z := fst c * 510 + (snd c - 1) * 2.
Lemma addr_range c : valid c -> 0 <= addr_of c < 2039 /\ addr_of c mod 2 = 0.
Proof. intros [H1 H2]. unfold addr_of. split; [lia|]. replace (fst c * 510 + (snd c - 1) * 2) with ((fst c * 255 + (snd c - 1)) * 2) by lia. apply Z.mod_mul. lia. Qed.
Lemma addr_inj c c' : valid c -> valid c' -> addr_of c = addr_of c' -> c = c'.
Proof. destruct c as [a b], c' as [a' b']. unfold valid, addr_of. cbn. intros [H1 H2] [H3 H4] E. assert (a = a') by lia. subst. f_equal. lia. Qed.
Lemma cell_eqb_eq a b : cell_eqb a b = true <-> a = b.
Proof. destruct a, b. unfold cell_eqb. cbn. rewrite andb_true_iff, !Z.eqb_eq. split; [intros [-> ->]; auto|intros [= -> ->]; auto]. Qed.
Lemma prod_range w : 1 <= (w mod 3 + 1) * (w mod 5 + 1) * (w mod 17 + 1) <= 255.
Proof.
  pose proof (Z.mod_pos_bound w 3 ltac:(lia)). pose proof (Z.mod_pos_bound w 5 ltac:(lia)). pose proof (Z.mod_pos_bound w 17 ltac:(lia)).
  set (x := w mod 3 + 1) in *. set (y := w mod 5 + 1) in *. set (z := w mod 17 + 1) in *. assert (1 <= x <= 3 /\ 1 <= y <= 5 /\ 1 <= z <= 17) as (X & Y & Zz) by lia. clearbody x y z.
  assert (1 <= x * y <= 15) by nia. nia.
Qed.
Lemma cells_from_valid id : forall k, (k + length id <= 8)%nat -> Forall valid (cells_from k id).
Proof.
  induction id as [|w id IH]; intros k H; cbn [cells_from length] in *; constructor; [|apply IH; lia]. split; cbn [fst snd cell_of]; [|apply prod_range].
  split; [apply Z.div_pos; lia|apply Z.div_lt_upper_bound; lia].
Qed.
Lemma cells_valid id : wf_key id -> Forall valid (cells_of id).
Proof. intros [H _]. apply cells_from_valid. lia. Qed.
Lemma addrs_cells b id : size b = 255 -> d b = 16 -> nbf_addrs b 0 id = map addr_of (cells_of id).
Proof.
  intros Hs Hd. unfold cells_of. change 0 with (Z.of_nat 0) at 1. generalize 0%nat as k. induction id as [|w id IH]; intros k; cbn [nbf_addrs cells_from map]; [reflexivity|].
  f_equal; [|rewrite <- IH; f_equal; lia]. unfold nbf_addr, addr_of, cell_of. rewrite Hs, Hd. cbn [fst snd]. change (255 * 16 / 8) with 510. reflexivity.
Qed.
Definition ccount (c : Z * Z) (cs : list (Z * Z)) : Z := Z.of_nat (length (filter (cell_eqb c) cs)).
Lemma ccount_cons c x cs : ccount c (x :: cs) = (if cell_eqb c x then 1 else 0) + ccount c cs.
Proof. unfold ccount. cbn [filter]. destruct (cell_eqb c x); cbn [length]; lia. Qed.
Lemma ccount_nonneg c cs : 0 <= ccount c cs. Proof. unfold ccount. lia. Qed.
Lemma ccount_pos c cs : 0 < ccount c cs <-> In c cs.
Proof.
  induction cs as [|x cs IH]; [cbn; split; [lia|intros []]|]. rewrite ccount_cons. pose proof (ccount_nonneg c cs). destruct (cell_eqb c x) eqn:E.
  - apply cell_eqb_eq in E. subst. split; [left; auto|lia].
  - split; [intros; right; apply IH; lia|]. intros [->|H']; [|apply IH in H'; lia]. assert (cell_eqb c c = true) by (apply cell_eqb_eq; auto). congruence.
Qed.
(** at most two words of a key share a block *)
Lemma ccount_two c id : wf_key id -> ccount c (cells_of id) <= 2.
Proof.
  intros [H _]. destruct id as [|w0 [|w1 [|w2 [|w3 [|w4 [|w5 [|w6 [|w7 [|]]]]]]]]]; try discriminate. unfold cells_of. cbn [cells_from]. rewrite !ccount_cons. change (ccount c []) with 0.
  unfold cell_of, cell_eqb. cbn [fst snd]. change (Z.of_nat 0 / 2) with 0. change (Z.of_nat 1 / 2) with 0. change (Z.of_nat 2 / 2) with 1. change (Z.of_nat 3 / 2) with 1.
  change (Z.of_nat 4 / 2) with 2. change (Z.of_nat 5 / 2) with 2. change (Z.of_nat 6 / 2) with 3. change (Z.of_nat 7 / 2) with 3.
  destruct (Z.eqb_spec (fst c) 0), (Z.eqb_spec (fst c) 1), (Z.eqb_spec (fst c) 2), (Z.eqb_spec (fst c) 3); cbn [andb]; try lia; repeat (destruct (snd c =? _)); lia.
Qed.
Lemma cell_hits_cons c id l : cell_hits c (id :: l) = ccount c (cells_of id) + cell_hits c l. Proof. reflexivity. Qed.
Lemma cell_hits_nonneg c l : 0 <= cell_hits c l.
Proof. induction l as [|id l IH]; [cbn; lia|]. rewrite cell_hits_cons. pose proof (ccount_nonneg c (cells_of id)). lia. Qed.
Lemma cell_hits_app c l l' : cell_hits c (l ++ l') = cell_hits c l + cell_hits c l'.
Proof. induction l as [|id l IH]; [reflexivity|]. cbn [app]. rewrite !cell_hits_cons. lia. Qed.
Lemma cell_hits_le c l : Forall wf_key l -> cell_hits c l <= 2 * Z.of_nat (length l).
Proof. induction 1 as [|id l W _ IH]; [cbn; lia|]. rewrite cell_hits_cons. pose proof (ccount_two c id W). cbn [length]. lia. Qed.
Lemma cell_hits_in c id l : In id l -> ccount c (cells_of id) <= cell_hits c l.
Proof.
  induction l as [|x l IH]; [intros []|]. intros [->|H]; rewrite cell_hits_cons; [pose proof (cell_hits_nonneg c l); lia|]. pose proof (ccount_nonneg c (cells_of x)). specialize (IH H). lia.
Qed.
Lemma routed_in id l : In id l -> routed l id = true.
Proof. intros H. unfold routed. apply forallb_forall. intros c Hc. pose proof (cell_hits_in c id l H). apply ccount_pos in Hc. lia. Qed.

(** * The cells of a filter as functions *)
Record NS (ag ct : Z * Z -> Z) (b : bloom) : Prop := {
  ns_size : size b = 255; ns_d : d b = 16; ns_num : num_blocks b = 4; ns_len : len (bits b) = 2040;
  ns_ag : forall c, valid c -> at_ (bits b) (addr_of c) = ag c;
  ns_ct : forall c, valid c -> at_ (bits b) (addr_of c + 1) = ct c }.
Lemma ns_ext ag ct ag' ct' b : NS ag ct b -> (forall c, valid c -> ag c = ag' c) -> (forall c, valid c -> ct c = ct' c) -> NS ag' ct' b.
Proof. intros [? ? ? ? A C] E1 E2. constructor; auto; intros c V; [rewrite A|rewrite C]; auto. Qed.
Lemma ns_new : NS (fun _ => 0) (fun _ => 0) nbf_create. Proof. constructor; reflexivity. Qed.
Definition upd (f : Z -> Z) (cs : list (Z * Z)) (g : Z * Z -> Z) (c : Z * Z) : Z := Nat.iter (Z.to_nat (ccount c cs)) f (g c).
Lemma touch_each fa fc cs : Forall valid cs -> forall ag ct b, NS ag ct b -> exists m, each (map addr_of cs) (nbf_touch fa fc) (bits b) = Ok m /\ NS (upd fa cs ag) (upd fc cs ct) (set_bits b m).
Proof.
  induction 1 as [|x cs V _ IH]; intros ag ct b N; cbn [map each].
  - exists (bits b). split; auto. destruct N. constructor; auto.
  - unfold nbf_touch at 1. destruct (addr_range x V) as [R M2]. rewrite !rd_ok by (rewrite (ns_len _ _ _ N); lia). cbn [obind].
    rewrite (ns_ag _ _ _ N), (ns_ct _ _ _ N) by auto.
    destruct (IH (fun c => if cell_eqb c x then fa (ag c) else ag c) (fun c => if cell_eqb c x then fc (ct c) else ct c) (set_bits b (put (put (bits b) (addr_of x) (fa (ag x))) (addr_of x + 1) (fc (ct x))))) as (m & E & N').
    { destruct N as [? ? ? ? NA NC]. constructor; cbn [size d num_blocks bits set_bits put len at_]; auto.
      - intros c Vc. destruct (addr_range c Vc) as [Rc Mc]. replace (addr_of c =? addr_of x + 1) with false.
        2:{ symmetry. apply Z.eqb_neq. intros E. rewrite E in Mc. rewrite Z.add_mod, M2 in Mc by lia. discriminate. }
        destruct (Z.eqb_spec (addr_of c) (addr_of x)) as [E|E].
        + apply addr_inj in E; auto. subst. assert (Q : cell_eqb x x = true) by (apply cell_eqb_eq; auto). rewrite Q. reflexivity.
        + destruct (cell_eqb c x) eqn:Q; [apply cell_eqb_eq in Q; congruence|]. auto.
      - intros c Vc. destruct (addr_range c Vc) as [Rc Mc]. destruct (Z.eqb_spec (addr_of c + 1) (addr_of x + 1)) as [E|E].
        + assert (E' : addr_of c = addr_of x) by lia. apply addr_inj in E'; auto. subst. assert (Q : cell_eqb x x = true) by (apply cell_eqb_eq; auto). rewrite Q. reflexivity.
        + replace (addr_of c + 1 =? addr_of x) with false. 2:{ symmetry. apply Z.eqb_neq. intros E'. rewrite <- E' in M2. rewrite Z.add_mod, Mc in M2 by lia. discriminate. }
          destruct (cell_eqb c x) eqn:Q; [apply cell_eqb_eq in Q; congruence|]. auto. }
    exists m. split; [exact E|]. apply (ns_ext _ _ _ _ _ N'); intros c Vc; unfold upd; rewrite ccount_cons; pose proof (ccount_nonneg c cs); destruct (cell_eqb c x);
      try (replace (Z.to_nat (1 + ccount c cs)) with (S (Z.to_nat (ccount c cs))) by lia; rewrite iter_swap; reflexivity); rewrite Z.add_0_l; reflexivity.
Qed.
Lemma ns_add ag ct b id : NS ag ct b -> wf_key id -> 0 < free_items b <= 65535 ->
  exists b', nbf_add b id = Ok b' /\ free_items b' = free_items b - 1 /\ NS (upd (fun a => Z.lor a 128) (cells_of id) ag) (upd (fun c => u8 (c + 1)) (cells_of id) ct) b'.
Proof.
  intros N W F. unfold nbf_add. replace (free_items b =? 0) with false by lia. rewrite addrs_cells by apply N.
  rewrite (ns_d _ _ _ N). change (Z.shiftl 1 (Z.shiftr 16 1 - 1)) with 128.
  destruct (touch_each (fun a => Z.lor a 128) (fun c => u8 (c + 1)) (cells_of id) (cells_valid id W) ag ct b N) as (m & E & N'). rewrite E. cbn [obind]. eexists. split; [reflexivity|]. split; [cbn; rewrite u16_id; lia|].
  destruct N'. constructor; auto.
Qed.
Lemma ns_remove ag ct b id : NS ag ct b -> wf_key id -> 0 < free_items b < 65535 ->
  exists b', nbf_remove b id = Ok b' /\ free_items b' = free_items b + 1 /\ NS (upd (fun a => Z.shiftr a 1) (cells_of id) ag) (upd (fun c => u8 (c - 1)) (cells_of id) ct) b'.
Proof.
  intros N W F. unfold nbf_remove. replace (free_items b =? 0) with false by lia. rewrite addrs_cells by apply N.
  destruct (touch_each (fun a => Z.shiftr a 1) (fun c => u8 (c - 1)) (cells_of id) (cells_valid id W) ag ct b N) as (m & E & N'). rewrite E. cbn [obind]. eexists. split; [reflexivity|]. split; [cbn; rewrite u16_id; lia|].
  destruct N'. constructor; auto.
Qed.
Lemma ns_check ag ct b id : NS ag ct b -> wf_key id -> nbf_check b id = Ok (forallb (fun c => negb ((ag c =? 0) || (ct c =? 0))) (cells_of id)).
Proof.
  intros N W. unfold nbf_check. rewrite addrs_cells by apply N. pose proof (cells_valid id W) as V. induction V as [|c cs V _ IH]; cbn [map every_full forallb]; [reflexivity|].
  destruct (addr_range c V) as [R _]. rewrite !rd_ok by (rewrite (ns_len _ _ _ N); lia). cbn [obind]. rewrite IH. cbn [obind]. rewrite (ns_ag _ _ _ N), (ns_ct _ _ _ N) by auto. reflexivity.
Qed.
Lemma bytes_ok b : size b = 255 -> d b = 16 -> num_blocks b = 4 -> nbf_bytes b = 2040.
Proof. intros E1 E2 E3. unfold nbf_bytes. rewrite E1, E2, E3. reflexivity. Qed.
Lemma even_addr c : valid c -> Z.even (addr_of c) = true /\ Z.even (addr_of c + 1) = false.
Proof.
  intros V. destruct (addr_range c V) as [_ M]. assert (E : Z.even (addr_of c) = true) by (apply Zeven_bool_iff, Zeven_ex_iff; exists (addr_of c / 2); pose proof (Z.div_mod (addr_of c) 2 ltac:(lia)); lia).
  split; auto. rewrite Z.add_1_r, Z.even_succ, <- Z.negb_even, E. reflexivity.
Qed.
Lemma ns_loop ag ct b fa fc : NS ag ct b -> exists b', nbf_loop b fa fc = Ok b' /\ free_items b' = free_items b /\ NS (fun c => fa (addr_of c)) (fun c => fc (addr_of c)) b'.
Proof.
  intros N. unfold nbf_loop. rewrite bytes_ok by apply N. rewrite (ns_len _ _ _ N). cbn [Z.ltb Z.compare Pos.compare Pos.compare_cont]. eexists. split; [reflexivity|]. split; [reflexivity|].
  destruct N as [? ? ? ? NA NC]. constructor; cbn [size d num_blocks bits set_bits len at_]; auto; intros c V; destruct (addr_range c V) as [R _]; destruct (even_addr c V) as [E1 E2].
  - replace ((0 <=? addr_of c) && (addr_of c <? 2040)) with true by lia. rewrite E1. reflexivity.
  - replace ((0 <=? addr_of c + 1) && (addr_of c + 1 <? 2040)) with true by lia. rewrite E2. f_equal. lia.
Qed.
Lemma age_ns ag ct b c : NS ag ct b -> valid c -> age b (addr_of c) = ag c. Proof. intros N. apply N. Qed.
Lemma cnt_ns ag ct b c : NS ag ct b -> valid c -> cnt b (addr_of c) = ct c. Proof. intros N. apply N. Qed.
Lemma cells_in ag ct b k : NS ag ct b -> (In k (cells b) <-> exists c, valid c /\ k = addr_of c).
Proof.
  intros N. unfold cells. rewrite bytes_ok by apply N. change (2040 / 2) with 1020. rewrite in_map_iff. split.
  - intros (i & <- & Hi). apply zrange_in in Hi. exists (i / 255, i mod 255 + 1). pose proof (Z.mod_pos_bound i 255 ltac:(lia)). pose proof (Z.div_mod i 255 ltac:(lia)).
    unfold valid, addr_of. cbn [fst snd]. split; [|lia]. split; [|lia]. split; [apply Z.div_pos; lia|apply Z.div_lt_upper_bound; lia].
  - intros (c & V & ->). exists (fst c * 255 + (snd c - 1)). unfold addr_of. split; [lia|]. apply zrange_in. destruct V. lia.
Qed.

(** * Filters built by adding and uniting *)
Record Built (ids : list key) (b : bloom) : Prop := {
  bu_wf : Forall wf_key ids;
  bu_len : Z.of_nat (length ids) <= 64;
  bu_free : free_items b = 64 - Z.of_nat (length ids);
  bu_ns : exists ag, NS ag (fun c => cell_hits c ids) b /\ forall c, valid c -> (cell_hits c ids = 0 /\ ag c = 0) \/ (0 < cell_hits c ids /\ 128 <= ag c <= 255) }.
Lemma hits64 ids c : Forall wf_key ids -> Z.of_nat (length ids) <= 64 -> 0 <= cell_hits c ids <= 128.
Proof. intros W H. pose proof (cell_hits_nonneg c ids). pose proof (cell_hits_le c ids W). lia. Qed.
Lemma lor128 v : 0 <= v < 256 -> 128 <= Z.lor v 128 < 256. Proof. intros H. apply (lor_top 8 v); [left; reflexivity|exact H]. Qed.
Lemma iter_lor k v : 0 <= v < 256 -> (k = 0%nat -> 128 <= v \/ True) -> (0 < k)%nat -> 128 <= Nat.iter k (fun a => Z.lor a 128) v < 256.
Proof.
  intros Hv _ Hk. destruct k as [|k]; [lia|]. clear Hk. induction k as [|k IH]; [apply lor128; auto|]. rewrite iter_S. apply lor128. lia.
Qed.
Lemma built_new : Built [] nbf_create.
Proof. constructor; auto; try reflexivity; [cbn; lia|]. exists (fun _ => 0). split; [apply ns_new|]. intros c _. left. auto. Qed.
Lemma built_add ids b id : Built ids b -> wf_key id ->
  (Z.of_nat (length ids) < 64 -> exists b', nbf_add b id = Ok b' /\ Built (id :: ids) b') /\ (64 <= Z.of_nat (length ids) -> nbf_add b id = Abort).
Proof.
  intros Bu W. pose proof (bu_len _ _ Bu) as HL. pose proof (bu_free _ _ Bu) as HF. destruct (bu_ns _ _ Bu) as (ag & N & A). split; intros Hl.
  - destruct (ns_add ag _ b id N W) as (b' & E & F & N'); [lia|]. exists b'. split; auto.
    assert (W' : Forall wf_key (id :: ids)) by (constructor; [auto|apply Bu]). constructor; [auto|cbn [length]; lia|cbn [length]; lia|].
    eexists. split; [apply (ns_ext _ _ (upd (fun a => Z.lor a 128) (cells_of id) ag) _ _ N'); auto|].
    + intros c V. unfold upd. rewrite cell_hits_cons. pose proof (hits64 ids c (bu_wf _ _ Bu) HL). pose proof (ccount_nonneg c (cells_of id)). pose proof (ccount_two c id W).
      rewrite iter_inc by lia. rewrite Z2Nat.id by lia. rewrite u8_id by lia. lia.
    + intros c V. unfold upd. rewrite cell_hits_cons. pose proof (ccount_nonneg c (cells_of id)). specialize (A c V). destruct (Z.eq_dec (ccount c (cells_of id)) 0) as [Z0|Z0].
      * rewrite Z0. change (Z.to_nat 0) with 0%nat. cbn. exact A.
      * right. split; [lia|]. assert (128 <= Nat.iter (Z.to_nat (ccount c (cells_of id))) (fun a => Z.lor a 128) (ag c) < 256); [|lia]. apply iter_lor; auto; lia.
  - unfold nbf_add. replace (free_items b =? 0) with true by lia. reflexivity.
Qed.
Lemma shape_ok a b aga cta agb ctb : NS aga cta a -> NS agb ctb b -> nbf_shape a b = true.
Proof. intros [E1 E2 E3] [F1 F2 F3]. unfold nbf_shape, same_shape. rewrite E1, E2, E3, F1, F2, F3. reflexivity. Qed.
Lemma built_union ids1 ids2 b1 b2 : Built ids1 b1 -> Built ids2 b2 ->
  (Z.of_nat (length (ids1 ++ ids2)) <= 64 -> exists b', nbf_union b1 b2 = Ok b' /\ Built (ids1 ++ ids2) b') /\ (64 < Z.of_nat (length (ids1 ++ ids2)) -> nbf_union b1 b2 = Abort).
Proof.
  intros U1 U2. pose proof (bu_len _ _ U1) as L1. pose proof (bu_len _ _ U2) as L2. pose proof (bu_free _ _ U1) as F1. pose proof (bu_free _ _ U2) as F2.
  destruct (bu_ns _ _ U1) as (ag1 & N1 & A1). destruct (bu_ns _ _ U2) as (ag2 & N2 & A2). unfold nbf_union. rewrite (shape_ok _ _ _ _ _ _ N1 N2). cbn [negb orb]. rewrite app_length, Nat2Z.inj_add. split; intros Hl.
  - replace (64 <? 64 - free_items b1 + (64 - free_items b2)) with false by lia.
    destruct (ns_loop _ _ b1 (fun k => if 255 <=? age b1 k + age b2 k then 255 else age b1 k + age b2 k) (fun k => u8 (cnt b1 k + cnt b2 k)) N1) as (b' & E & F & N'). rewrite E. cbn [obind].
    eexists. split; [reflexivity|]. constructor.
    + apply Forall_app. split; [apply U1|apply U2].
    + rewrite app_length. lia.
    + cbn [free_items set_free]. rewrite app_length, u16_id by lia. lia.
    + exists (fun c => if 255 <=? ag1 c + ag2 c then 255 else ag1 c + ag2 c). split.
      * assert (N'' : NS (fun c => if 255 <=? ag1 c + ag2 c then 255 else ag1 c + ag2 c) (fun c => cell_hits c (ids1 ++ ids2)) b').
        { apply (ns_ext _ _ _ _ _ N'); intros c V; cbv beta.
          - rewrite (age_ns _ _ _ _ N1), (age_ns _ _ _ _ N2) by auto. reflexivity.
          - rewrite (cnt_ns _ _ _ _ N1), (cnt_ns _ _ _ _ N2), cell_hits_app by auto. pose proof (hits64 ids1 c (bu_wf _ _ U1) L1). pose proof (hits64 ids2 c (bu_wf _ _ U2) L2).
            pose proof (cell_hits_le c ids1 (bu_wf _ _ U1)). pose proof (cell_hits_le c ids2 (bu_wf _ _ U2)). apply u8_id. lia. }
        destruct N''. constructor; auto.
      * intros c V. rewrite cell_hits_app. specialize (A1 c V). specialize (A2 c V). destruct (Z.leb_spec 255 (ag1 c + ag2 c)); lia.
  - replace (64 <? 64 - free_items b1 + (64 - free_items b2)) with true by lia. reflexivity.
Qed.
Lemma routing_build e : Forall wf_key (items e) ->
  (Z.of_nat (length (items e)) <= 64 -> exists b, routing e = Ok b /\ Built (items e) b) /\ (64 < Z.of_nat (length (items e)) -> routing e = Abort).
Proof.
  induction e as [|e IH id|e1 IH1 e2 IH2]; cbn [items]; intros W.
  - split; [intros _; exists nbf_create; split; [reflexivity|apply built_new]|cbn; lia].
  - inversion W as [|? ? W1 W2]; subst. destruct (IH W2) as [IHa IHb]. unfold routing in *. cbn [build length]. split; intros Hl.
    + destruct IHa as (b & E & Bu); [lia|]. rewrite E. cbn [obind]. destruct (built_add _ b id Bu W1) as [H _]. apply H. lia.
    + destruct (Z.le_gt_cases (Z.of_nat (length (items e))) 64) as [H|H]; [|rewrite IHb by lia; reflexivity]. destruct (IHa H) as (b & E & Bu). rewrite E. cbn [obind]. apply (built_add _ b id Bu W1). lia.
  - apply Forall_app in W as [W1 W2]. destruct (IH1 W1) as [IHa1 IHb1]. destruct (IH2 W2) as [IHa2 IHb2]. unfold routing in *. cbn [build]. rewrite app_length. split; intros Hl.
    + destruct IHa1 as (b1 & E1 & Bu1); [lia|]. destruct IHa2 as (b2 & E2 & Bu2); [lia|]. rewrite E1. cbn [obind]. rewrite E2. cbn [obind]. destruct (built_union _ _ _ _ Bu1 Bu2) as [H _]. apply H. rewrite app_length. lia.
    + destruct (Z.le_gt_cases (Z.of_nat (length (items e1))) 64) as [H1|H1]; [|rewrite IHb1 by lia; reflexivity]. destruct (IHa1 H1) as (b1 & E1 & Bu1). rewrite E1. cbn [obind].
      destruct (Z.le_gt_cases (Z.of_nat (length (items e2))) 64) as [H2|H2]; [|rewrite IHb2 by lia; reflexivity]. destruct (IHa2 H2) as (b2 & E2 & Bu2). rewrite E2. cbn [obind]. apply (built_union _ _ _ _ Bu1 Bu2). rewrite app_length. lia.
Qed.
Lemma forallb_ext_in {A} (f g : A -> bool) l : (forall x, In x l -> f x = g x) -> forallb f l = forallb g l.
Proof. induction l as [|x l IH]; intros H; [reflexivity|]. cbn. rewrite (H x) by (left; auto). f_equal. apply IH. intros y Hy. apply H. right. auto. Qed.
Lemma existsb_ext_in {A} (f g : A -> bool) l : (forall x, In x l -> f x = g x) -> existsb f l = existsb g l.
Proof. induction l as [|x l IH]; intros H; [reflexivity|]. cbn. rewrite (H x) by (left; auto). f_equal. apply IH. intros y Hy. apply H. right. auto. Qed.
Lemma forallb_andb {A} (f g : A -> bool) l : forallb (fun x => f x && g x) l = forallb f l && forallb g l.
Proof. induction l as [|x l IH]; [reflexivity|]. cbn. rewrite IH. destruct (f x), (g x), (forallb f l); auto. Qed.
Lemma valid_in id c : wf_key id -> In c (cells_of id) -> valid c.
Proof. intros W H. pose proof (cells_valid id W) as V. rewrite Forall_forall in V. auto. Qed.
Lemma built_check ids b id : Built ids b -> wf_key id -> nbf_check b id = Ok (routed ids id).
Proof.
  intros Bu W. destruct (bu_ns _ _ Bu) as (ag & N & A). rewrite (ns_check _ _ _ _ N W). f_equal. apply forallb_ext_in. intros c Hc. specialize (A c (valid_in id c W Hc)). lia.
Qed.
(** ageing *)
Lemma ns_age_dec ag ct b : NS ag ct b -> exists b', nbf_age_dec b = Ok b' /\ NS (fun c => if 8 <? ag c then ag c - 8 else 0) ct b'.
Proof.
  intros N. unfold nbf_age_dec. rewrite (ns_d _ _ _ N). change (Z.shiftr 16 1) with 8. destruct (ns_loop _ _ b (fun k => if 8 <? age b k then age b k - 8 else 0) (cnt b) N) as (b' & E & _ & N'). exists b'. split; auto.
  apply (ns_ext _ _ _ _ _ N'); intros c V; cbv beta; [rewrite (age_ns _ _ _ _ N) by auto; reflexivity|apply (cnt_ns _ _ _ _ N V)].
Qed.
Lemma ns_age_times k : forall ag ct b, NS ag ct b -> (forall c, valid c -> 0 <= ag c) -> exists b', age_times k b = Ok b' /\ NS (fun c => Z.max 0 (ag c - 8 * Z.of_nat k)) ct b'.
Proof.
  induction k as [|k IH]; intros ag ct b N P; cbn [age_times].
  - exists b. split; auto. apply (ns_ext _ _ _ _ _ N); auto. intros c V. specialize (P c V). lia.
  - destruct (ns_age_dec ag ct b N) as (b1 & E1 & N1). rewrite E1. cbn [obind]. destruct (IH _ _ b1 N1) as (b' & E' & N'); [intros c V; destruct (8 <? ag c) eqn:?; lia|]. exists b'. split; auto.
    apply (ns_ext _ _ _ _ _ N'); auto. intros c V. cbv beta. specialize (P c V). destruct (Z.ltb_spec 8 (ag c)); lia.
Qed.
Lemma built_age k ids b id : Built ids b -> wf_key id -> exists b', age_times k b = Ok b' /\
  ((k <= 15)%nat -> nbf_check b' id = Ok (routed ids id)) /\ ((32 <= k)%nat -> nbf_check b' id = Ok false).
Proof.
  intros Bu W. destruct (bu_ns _ _ Bu) as (ag & N & A). destruct (ns_age_times k ag _ b N) as (b' & E & N'); [intros c V; specialize (A c V); lia|]. exists b'. split; auto. rewrite (ns_check _ _ _ _ N' W). split; intros Hk; f_equal.
  - apply forallb_ext_in. intros c Hc. specialize (A c (valid_in id c W Hc)). lia.
  - assert (V := cells_valid id W). destruct W as [Wl _]. destruct id as [|w id]; [discriminate|]. unfold cells_of in *. cbn [cells_from forallb] in *. inversion V as [|? ? V0 _]; subst. specialize (A _ V0).
    replace (Z.max 0 (ag (cell_of 0 w) - 8 * Z.of_nat k) =? 0) with true by lia. reflexivity.
Qed.
(** heuristic *)
Lemma heur0 ag ct b cs : NS ag ct b -> (forall c, valid c -> 0 <= ag c <= 255) -> Forall valid cs -> heuristic (bits b) (map addr_of cs) 0 = Ok 0.
Proof.
  intros N A V. induction V as [|c cs V _ IH]; cbn [map heuristic]; [reflexivity|]. destruct (addr_range c V) as [R _]. rewrite !rd_ok by (rewrite (ns_len _ _ _ N); lia). cbn [obind].
  rewrite (ns_ag _ _ _ N), (ns_ct _ _ _ N) by auto. specialize (A c V). destruct (ct c =? 0); [reflexivity|]. destruct (Z.ltb_spec 0 (ag c)); [exact IH|]. replace (ag c) with 0 by lia. exact IH.
Qed.
Lemma heur ag ct b cs : NS ag ct b -> (forall c, valid c -> 0 <= ag c <= 255) -> (forall c, valid c -> 0 <= ct c) -> Forall valid cs -> forall r, 0 < r <= 256 -> exists h, heuristic (bits b) (map addr_of cs) r = Ok h /\ 0 <= h <= r /\
  (0 < h -> forallb (fun c => negb ((ag c =? 0) || (ct c =? 0))) cs = true /\ forall c, In c cs -> h <= ag c) /\
  (forallb (fun c => negb ((ag c =? 0) || (ct c =? 0))) cs = true -> 0 < h /\ (h = r \/ exists c, In c cs /\ ag c = h)).
Proof.
  intros N A C V. induction V as [|c cs V Vs IH]; intros r Hr; cbn [map heuristic forallb].
  - exists r. split; auto. split; [lia|]. split; [intros _; split; [auto|intros ? []]|intros _; split; [lia|auto]].
  - destruct (addr_range c V) as [R _]. rewrite !rd_ok by (rewrite (ns_len _ _ _ N); lia). cbn [obind]. rewrite (ns_ag _ _ _ N), (ns_ct _ _ _ N) by auto. pose proof (A c V) as A0. pose proof (C c V) as C0.
    destruct (Z.eqb_spec (ct c) 0) as [Z0|Z0].
    + exists 0. split; auto. split; [lia|]. rewrite orb_true_r. cbn. split; [lia|discriminate].
    + rewrite orb_false_r. destruct (Z.eq_dec (ag c) 0) as [Za|Za].
      * rewrite Za. replace (r <? 0) with false by lia. exists 0. cbn [Z.eqb negb andb]. split; [|split; [lia|split; [lia|discriminate]]]. clear IH.
        apply (heur0 ag ct); auto.
      * destruct (IH (if r <? ag c then r else ag c)) as (h & E & B & H1 & H2); [destruct (r <? ag c) eqn:?; lia|]. exists h. split; auto. split; [destruct (r <? ag c) eqn:?; lia|]. replace (ag c =? 0) with false by lia. cbn [negb andb]. split.
        -- intros P. destruct (H1 P) as [Q1 Q2]. split; auto. intros x [<-|Hx]; auto. destruct (Z.ltb_spec r (ag c)); lia.
        -- intros Q. destruct (H2 Q) as [P [Eh|(x & Hx & Ex)]]; (split; [auto|]); [destruct (r <? ag c); [left; auto|right; exists c; split; [left|]; auto]|right; exists x; split; [right|]; auto].
Qed.

Lemma built_heuristic ids b id : Built ids b -> wf_key id -> exists h, nbf_heuristic b id = Ok h /\ 0 <= h <= 255 /\ (0 < h <-> nbf_check b id = Ok true) /\ (0 < h -> 128 <= h).
Proof.
  intros Bu W. pose proof (built_check ids b id Bu W) as K. destruct (bu_ns _ _ Bu) as (ag & N & A). rewrite (ns_check _ _ _ _ N W) in K. unfold nbf_heuristic. rewrite addrs_cells by apply N.
  destruct (heur ag _ b (cells_of id) N) with (r := 256) as (h & E & B & H1 & H2); [intros c V; specialize (A c V); lia|intros; apply cell_hits_nonneg|apply cells_valid; auto|lia|].
  exists h. split; auto. rewrite (ns_check _ _ _ _ N W).
  assert (X : 0 < h -> 128 <= h <= 255). { intros P. destruct (H1 P) as [Q _]. destruct (H2 Q) as [_ [Eh|(c & Hc & Ec)]].
    - assert (V := cells_valid id W). destruct W as [Wl _]. destruct id as [|w id]; [discriminate|]. destruct (H1 P) as [_ M]. specialize (M _ (or_introl eq_refl)). unfold cells_of in V. cbn [cells_from] in V. inversion V as [|? ? V0 _]; subst. specialize (A _ V0). lia.
    - specialize (A c (valid_in id c W Hc)). lia. }
  split; [|split; [split; [intros P; f_equal; apply H1; auto|intros [= Q]; apply H2; auto]|intros P; apply X; auto]]. destruct (Z.eq_dec h 0); [lia|]. specialize (X ltac:(lia)). lia.
Qed.
(** * Two filters *)
Lemma valid_witness : valid (0, 1). Proof. split; cbn; lia. Qed.
Lemma built_intersect ids1 ids2 r t : Built ids1 r -> Built ids2 t ->
  (Z.of_nat (length (ids1 ++ ids2)) <= 64 -> exists c b, nbf_intersect r t = Ok (c, b) /\ (forall id, wf_key id -> nbf_check b id = Ok (routed ids1 id && routed ids2 id)) /\
     (c = true <-> exists x, valid x /\ 0 < cell_hits x ids1 /\ 0 < cell_hits x ids2)) /\
  (64 < Z.of_nat (length (ids1 ++ ids2)) -> nbf_intersect r t = Abort).
Proof.
  intros U1 U2. pose proof (bu_len _ _ U1) as L1. pose proof (bu_len _ _ U2) as L2. pose proof (bu_free _ _ U1) as F1. pose proof (bu_free _ _ U2) as F2.
  destruct (bu_ns _ _ U1) as (ag1 & N1 & A1). destruct (bu_ns _ _ U2) as (ag2 & N2 & A2). unfold nbf_intersect. rewrite (shape_ok _ _ _ _ _ _ N1 N2). cbn [negb orb]. rewrite app_length, Nat2Z.inj_add. split; intros Hl.
  2:{ replace (free_items t + free_items r <? 64) with true by lia. reflexivity. }
  replace (free_items t + free_items r <? 64) with false by lia.
  match goal with |- context [nbf_loop r ?fa ?fc] => destruct (ns_loop _ _ r fa fc N1) as (b & E & F & N'); rewrite E end. cbn [obind]. eexists _, _. split; [reflexivity|]. split.
  - intros id W. assert (N'' : NS (fun c => if ag2 c <? ag1 c then ag2 c else ag1 c) (fun c => if 0 <? (if ag2 c <? ag1 c then ag2 c else ag1 c) then u8 (cell_hits c ids1 + cell_hits c ids2) else cell_hits c ids1) b).
    { apply (ns_ext _ _ _ _ _ N'); intros c V; cbv beta; rewrite ?(age_ns _ _ _ _ N1), ?(age_ns _ _ _ _ N2), ?(cnt_ns _ _ _ _ N1), ?(cnt_ns _ _ _ _ N2) by auto; reflexivity. }
    assert (N3 : NS (fun c => if ag2 c <? ag1 c then ag2 c else ag1 c) (fun c => if 0 <? (if ag2 c <? ag1 c then ag2 c else ag1 c) then u8 (cell_hits c ids1 + cell_hits c ids2) else cell_hits c ids1) (set_free b 0)) by (destruct N''; constructor; auto).
    rewrite (ns_check _ _ _ _ N3 W). f_equal. unfold routed. rewrite <- forallb_andb. apply forallb_ext_in. intros c Hc. pose proof (valid_in id c W Hc) as V. specialize (A1 c V). specialize (A2 c V).
    pose proof (cell_hits_le c ids1 (bu_wf _ _ U1)). pose proof (cell_hits_le c ids2 (bu_wf _ _ U2)). destruct (ag2 c <? ag1 c) eqn:Q; destruct (0 <? _) eqn:Q2; try rewrite u8_id by lia; lia.
  - rewrite existsb_exists. split.
    + intros (k & Hk & P). apply (cells_in _ _ _ k N1) in Hk as (c & V & ->). rewrite (age_ns _ _ _ _ N1), (age_ns _ _ _ _ N2) in P by auto. exists c. split; auto. specialize (A1 c V). specialize (A2 c V). destruct (ag2 c <? ag1 c) eqn:Q; lia.
    + intros (c & V & P1 & P2). exists (addr_of c). split; [apply (cells_in _ _ _ _ N1); eauto|]. rewrite (age_ns _ _ _ _ N1), (age_ns _ _ _ _ N2) by auto. specialize (A1 c V). specialize (A2 c V). destruct (ag2 c <? ag1 c) eqn:Q; lia.
Qed.
Lemma ns_free ag ct b f : NS ag ct b -> NS ag ct (set_free b f). Proof. intros []. constructor; auto. Qed.
Lemma cells_nonempty ag ct b : NS ag ct b -> negb (0 =? Z.of_nat (length (cells b))) = true.
Proof. intros N. unfold cells. rewrite bytes_ok by apply N. reflexivity. Qed.
Lemma built_ignore_age ids1 ids2 r t : Built ids1 r -> Built ids2 t ->
  (Z.of_nat (length (ids1 ++ ids2)) <= 64 -> exists b, nbf_intersect_ignore_age r t = Ok (true, b) /\
     (exists ag, NS ag (fun c => if (0 <? cell_hits c ids1) && (0 <? cell_hits c ids2) then cell_hits c ids1 + cell_hits c ids2 else 0) b) /\
     (forall id, wf_key id -> nbf_check b id = Ok (routed ids1 id && routed ids2 id))) /\
  (64 < Z.of_nat (length (ids1 ++ ids2)) -> nbf_intersect_ignore_age r t = Abort).
Proof.
  intros U1 U2. pose proof (bu_len _ _ U1) as L1. pose proof (bu_len _ _ U2) as L2. pose proof (bu_free _ _ U1) as F1. pose proof (bu_free _ _ U2) as F2.
  destruct (bu_ns _ _ U1) as (ag1 & N1 & A1). destruct (bu_ns _ _ U2) as (ag2 & N2 & A2). unfold nbf_intersect_ignore_age. rewrite (shape_ok _ _ _ _ _ _ N1 N2). cbn [negb orb]. rewrite app_length, Nat2Z.inj_add. split; intros Hl.
  2:{ replace (free_items t + free_items r <? 64) with true by lia. reflexivity. }
  replace (free_items t + free_items r <? 64) with false by lia. rewrite (cells_nonempty _ _ _ N1).
  match goal with |- context [nbf_loop r ?fa ?fc] => destruct (ns_loop _ _ r fa fc N1) as (b & E & F & N'); rewrite E end. cbn [obind]. eexists. split; [reflexivity|].
  assert (N3 : NS ag1 (fun c => if (0 <? cell_hits c ids1) && (0 <? cell_hits c ids2) then cell_hits c ids1 + cell_hits c ids2 else 0) (set_free b 0)).
  { apply ns_free. apply (ns_ext _ _ _ _ _ N'); intros c V; cbv beta; [apply (age_ns _ _ _ _ N1 V)|]. rewrite (cnt_ns _ _ _ _ N1), (cnt_ns _ _ _ _ N2) by auto.
    pose proof (cell_hits_le c ids1 (bu_wf _ _ U1)). pose proof (cell_hits_le c ids2 (bu_wf _ _ U2)). pose proof (cell_hits_nonneg c ids1). pose proof (cell_hits_nonneg c ids2). destruct ((0 <? _) && _); [apply u8_id; lia|reflexivity]. }
  split; [exists ag1; exact N3|]. intros id W. rewrite (ns_check _ _ _ _ N3 W). f_equal. unfold routed. rewrite <- forallb_andb. apply forallb_ext_in. intros c Hc. pose proof (valid_in id c W Hc) as V. specialize (A1 c V).
  pose proof (cell_hits_nonneg c ids1). pose proof (cell_hits_nonneg c ids2). destruct (Z.ltb_spec 0 (cell_hits c ids1)), (Z.ltb_spec 0 (cell_hits c ids2)); cbn [andb]; lia.
Qed.
Lemma ns_cmp aga cta agb ctb a b : NS aga cta a -> NS agb ctb b -> (forall c, valid c -> 0 <= cta c /\ 0 <= ctb c) ->
  exists r, nbf_cmp a b = Ok r /\ (r = 0 <-> forall c, valid c -> (0 < cta c <-> 0 < ctb c)) /\ (r = 0 \/ r = -1).
Proof.
  intros N1 N2 P. unfold nbf_cmp. rewrite (shape_ok _ _ _ _ _ _ N1 N2). cbn [negb]. eexists. split; [reflexivity|]. destruct (existsb _ (cells a)) eqn:E.
  - split; [|auto]. split; [discriminate|]. intros H. apply existsb_exists in E as (k & Hk & Q). apply (cells_in _ _ _ k N1) in Hk as (c & V & ->). rewrite (cnt_ns _ _ _ _ N1), (cnt_ns _ _ _ _ N2) in Q by auto. specialize (H c V). specialize (P c V). exfalso. lia.
  - split; [|auto]. split; [|auto]. intros _ c V. specialize (P c V).
    assert (Q : ((cnt a (addr_of c) =? 0) && (0 <? cnt b (addr_of c))) || ((cnt b (addr_of c) =? 0) && (0 <? cnt a (addr_of c))) = false).
    { destruct (_ || _) eqn:Q; auto. rewrite <- E. symmetry. apply existsb_exists. exists (addr_of c). split; [apply (cells_in _ _ _ _ N1); eauto|exact Q]. }
    rewrite (cnt_ns _ _ _ _ N1), (cnt_ns _ _ _ _ N2) in Q by auto. lia.
Qed.
Lemma filter_len_eq {A} (f : A -> bool) l : (length (filter f l) =? length l)%nat = forallb f l.
Proof.
  assert (G : forall l, (length (filter f l) <= length l)%nat) by (induction l0 as [|x l0 IH]; cbn; [lia|]; destruct (f x); cbn; lia).
  induction l as [|x l IH]; [reflexivity|]. cbn. destruct (f x); cbn [length andb]; [exact IH|]. apply Nat.eqb_neq. specialize (G l). lia.
Qed.
Lemma built_containment ids1 ids2 a b : Built ids1 a -> Built ids2 b -> exists r, nbf_containment a b = Ok r /\ (r = true <-> forall c, valid c -> cell_hits c ids2 <= cell_hits c ids1).
Proof.
  intros U1 U2. pose proof (bu_len _ _ U1) as L1. pose proof (bu_len _ _ U2) as L2. pose proof (bu_free _ _ U1) as F1. pose proof (bu_free _ _ U2) as F2.
  destruct (bu_ns _ _ U1) as (ag1 & N1 & A1). destruct (bu_ns _ _ U2) as (ag2 & N2 & A2). unfold nbf_containment. rewrite (shape_ok _ _ _ _ _ _ N1 N2). cbn [negb orb].
  replace (64 <? free_items a) with false by lia. replace (64 <? free_items b) with false by lia. cbn [orb]. eexists. split; [reflexivity|].
  match goal with |- (Z.of_nat ?x =? Z.of_nat ?y) = true <-> _ => assert (X : (Z.of_nat x =? Z.of_nat y) = (x =? y)%nat) by (destruct (Nat.eqb_spec x y); lia); rewrite X; clear X end.
  rewrite filter_len_eq, forallb_forall. split.
  - intros H c V. destruct (Z.le_gt_cases (cell_hits c ids2) 0) as [Hz|Hz]; [pose proof (cell_hits_nonneg c ids1); lia|].
    assert (Q : In (addr_of c) (filter (fun k => 0 <? cnt b k) (cells a))). { apply filter_In. split; [apply (cells_in _ _ _ _ N1); eauto|]. rewrite (cnt_ns _ _ _ _ N2) by auto. lia. }
    apply H in Q. rewrite (cnt_ns _ _ _ _ N1), (cnt_ns _ _ _ _ N2) in Q by auto. lia.
  - intros H k Hk. apply filter_In in Hk as [Hk _]. apply (cells_in _ _ _ _ N1) in Hk as (c & V & ->). rewrite (cnt_ns _ _ _ _ N1), (cnt_ns _ _ _ _ N2) by auto. specialize (H c V). lia.
Qed.

(** * Sums over the cells *)
Definition csum {A} (f : A -> Z) (l : list A) : Z := fold_right (fun x s => f x + s) 0 l.
Lemma csum_ext {A} (f g : A -> Z) l : (forall x, In x l -> f x = g x) -> csum f l = csum g l.
Proof. induction l as [|x l IH]; intros H; [reflexivity|]. cbn. rewrite (H x) by (left; auto). f_equal. apply IH. intros y Hy. apply H. right. auto. Qed.
Lemma csum_nonneg {A} (f : A -> Z) l : (forall x, In x l -> 0 <= f x) -> 0 <= csum f l.
Proof. induction l as [|x l IH]; intros H; cbn; [lia|]. specialize (IH (fun y Hy => H y (or_intror Hy))). pose proof (H x (or_introl eq_refl)). fold (csum f l). lia. Qed.
Lemma csum_plus {A} (f g : A -> Z) l : csum (fun x => f x + g x) l = csum f l + csum g l.
Proof. induction l as [|x l IH]; [reflexivity|]. cbn. fold (csum (fun x => f x + g x) l). rewrite IH. fold (csum f l) (csum g l). lia. Qed.
Lemma csum_le {A} (f g : A -> Z) l : (forall x, In x l -> f x <= g x) -> csum f l <= csum g l.
Proof. induction l as [|x l IH]; intros H; cbn; [lia|]. specialize (IH (fun y Hy => H y (or_intror Hy))). pose proof (H x (or_introl eq_refl)). fold (csum f l) (csum g l). lia. Qed.
Lemma csum_eq_iff {A} (f g : A -> Z) l : (forall x, In x l -> f x <= g x) -> (csum f l = csum g l <-> forall x, In x l -> f x = g x).
Proof.
  induction l as [|x l IH]; intros H; [split; [intros _ ? []|reflexivity]|]. cbn. fold (csum f l) (csum g l). pose proof (H x (or_introl eq_refl)).
  pose proof (csum_le f g l (fun y Hy => H y (or_intror Hy))). specialize (IH (fun y Hy => H y (or_intror Hy))). split.
  - intros E. assert (f x = g x /\ csum f l = csum g l) as [E1 E2] by lia. intros y [<-|Hy]; auto. apply IH; auto.
  - intros E. rewrite (E x) by (left; auto). f_equal. apply IH. intros y Hy. apply E. right. auto.
Qed.
Lemma csum_filter {A} (p : A -> bool) (f : A -> Z) l : csum f (filter p l) = csum (fun x => if p x then f x else 0) l.
Proof. induction l as [|x l IH]; [reflexivity|]. cbn. destruct (p x); cbn; fold (csum f (filter p l)) (csum (fun x => if p x then f x else 0) l); rewrite IH; lia. Qed.
Lemma csum_map {A B} (h : A -> B) (f : B -> Z) l : csum f (map h l) = csum (fun x => f (h x)) l.
Proof. induction l as [|x l IH]; [reflexivity|]. cbn. fold (csum f (map h l)). rewrite IH. reflexivity. Qed.
Lemma fold_mod {A} (M : Z) (f : A -> Z) l : 0 < M -> forall s, fold_left (fun c x => (c + f x) mod M) l (s mod M) = (s + csum f l) mod M.
Proof.
  intros HM. induction l as [|x l IH]; intros s; cbn [fold_left csum fold_right]; [rewrite Z.add_0_r; reflexivity|]. rewrite Z.add_mod_idemp_l by lia. rewrite IH. fold (csum f l). f_equal. lia.
Qed.
Definition all_cells : list (Z * Z) := map (fun i => (i / 255, i mod 255 + 1)) (zrange 1020).
Lemma cells_map ag ct b : NS ag ct b -> cells b = map addr_of all_cells.
Proof.
  intros N. unfold cells, all_cells. rewrite bytes_ok by apply N. change (2040 / 2) with 1020. rewrite map_map. apply map_ext. intros i. unfold addr_of. cbn [fst snd]. pose proof (Z.div_mod i 255 ltac:(lia)). lia.
Qed.
Lemma all_cells_in c : In c all_cells <-> valid c.
Proof.
  unfold all_cells. rewrite in_map_iff. split.
  - intros (i & <- & Hi). apply zrange_in in Hi. pose proof (Z.mod_pos_bound i 255 ltac:(lia)). unfold valid. cbn [fst snd]. split; [|lia]. split; [apply Z.div_pos; lia|apply Z.div_lt_upper_bound; lia].
  - intros [V1 V2]. exists (fst c * 255 + (snd c - 1)). split; [|apply zrange_in; lia]. destruct c as [x y]. cbn [fst snd] in *. rewrite Z.div_add_l, Z.div_small by lia. rewrite (Z.add_comm (x * 255)), Z.mod_add, Z.mod_small by lia. f_equal; lia.
Qed.
Lemma all_cells_nodup : NoDup all_cells.
Proof.
  unfold all_cells, zrange. rewrite map_map. apply FinFun.Injective_map_NoDup; [|apply seq_NoDup]. intros x y E. injection E as E1 E2.
  pose proof (Z.div_mod (Z.of_nat x) 255 ltac:(lia)). pose proof (Z.div_mod (Z.of_nat y) 255 ltac:(lia)). lia.
Qed.
Lemma csum_single {x : Z * Z} l : NoDup l -> csum (fun c => if cell_eqb c x then 1 else 0) l = if existsb (fun c => cell_eqb c x) l then 1 else 0.
Proof.
  induction l as [|y l IH]; intros H; [reflexivity|]. inversion H as [|? ? H1 H2]; subst. cbn. fold (csum (fun c => if cell_eqb c x then 1 else 0) l). rewrite IH by auto. destruct (cell_eqb y x) eqn:E; cbn [orb]; [|lia].
  apply cell_eqb_eq in E. subst. destruct (existsb _ l) eqn:E; [|lia]. apply existsb_exists in E as (z & Hz & Ez). apply cell_eqb_eq in Ez. subst. contradiction.
Qed.
Lemma csum_ccount cs : Forall valid cs -> csum (fun c => ccount c cs) all_cells = Z.of_nat (length cs).
Proof.
  induction 1 as [|x cs V _ IH]; [unfold ccount; cbn [filter length]; rewrite (csum_ext _ (fun _ => 0)) by reflexivity; generalize all_cells; induction l as [|? l IHl]; [reflexivity|]; cbn; exact IHl|].
  rewrite (csum_ext _ (fun c => (if cell_eqb c x then 1 else 0) + ccount c cs)) by (intros; apply ccount_cons). rewrite csum_plus, IH, csum_single by apply all_cells_nodup.
  replace (existsb _ all_cells) with true; [cbn [length]; lia|]. symmetry. apply existsb_exists. exists x. split; [apply all_cells_in; auto|apply cell_eqb_eq; auto].
Qed.
Lemma csum_hits ids : Forall wf_key ids -> csum (fun c => cell_hits c ids) all_cells = 8 * Z.of_nat (length ids).
Proof.
  induction 1 as [|id ids W _ IH]; [cbn [cell_hits fold_right]; change (csum (fun _ => 0) all_cells = 0); generalize all_cells; induction l as [|? l IHl]; [reflexivity|]; cbn; exact IHl|].
  rewrite (csum_ext _ (fun c => ccount c (cells_of id) + cell_hits c ids)) by reflexivity. rewrite csum_plus, IH, csum_ccount by (apply cells_valid; auto).
  assert (length (cells_of id) = 8%nat) as ->; [|cbn [length]; lia]. destruct W as [W _]. rewrite <- W. unfold cells_of. generalize 0%nat. clear. induction id as [|w id IH]; intros k; [reflexivity|]. cbn. f_equal. apply IH.
Qed.

Lemma built_test ids1 ids2 r t : Built ids1 r -> Built ids2 t -> exists c, nbf_intersect_test r t = Ok c /\
  (c = true <-> forall x, valid x -> cell_hits x ids2 <= cell_hits x ids1 /\ (0 < cell_hits x ids1 -> 0 < cell_hits x ids2)).
Proof.
  intros U1 U2. pose proof (bu_len _ _ U1) as L1. pose proof (bu_len _ _ U2) as L2.
  destruct (bu_ns _ _ U1) as (ag1 & N1 & A1). destruct (bu_ns _ _ U2) as (ag2 & N2 & A2). unfold nbf_intersect_test. rewrite (shape_ok _ _ _ _ _ _ N1 N2). cbn [negb].
  assert (D : forall x, valid x -> differs r t (addr_of x) = ((0 <? cell_hits x ids1) && (cell_hits x ids2 =? 0)) || ((cell_hits x ids1 =? 0) && (0 <? cell_hits x ids2))).
  { intros x V. unfold differs. rewrite (age_ns _ _ _ _ N1), (age_ns _ _ _ _ N2) by auto. specialize (A1 x V). specialize (A2 x V). lia. }
  destruct (existsb (differs r t) (cells r)) eqn:E.
  - exists false. split; auto. split; [discriminate|]. intros H. apply existsb_exists in E as (k & Hk & Q). apply (cells_in _ _ _ k N1) in Hk as (c & V & ->). rewrite D in Q by auto. specialize (H c V). lia.
  - assert (Same : forall x, valid x -> (0 < cell_hits x ids1 <-> 0 < cell_hits x ids2)).
    { intros x V. assert (Q : differs r t (addr_of x) = false). { destruct (differs r t (addr_of x)) eqn:Q; auto. rewrite <- E. symmetry. apply existsb_exists. exists (addr_of x). split; auto. apply (cells_in _ _ _ _ N1). eauto. }
      rewrite D in Q by auto. pose proof (cell_hits_nonneg x ids1). pose proof (cell_hits_nonneg x ids2). lia. }
    eexists. split; [reflexivity|]. rewrite (cells_map _ _ _ N1).
    set (both := filter (fun k => (0 <? age r k) && (0 <? age t k)) (map addr_of all_cells)).
    assert (S1 : csum (cnt t) both = csum (fun c => cell_hits c ids2) all_cells).
    { unfold both. rewrite csum_filter, csum_map. apply csum_ext. intros c Hc. apply all_cells_in in Hc. rewrite (age_ns _ _ _ _ N1), (age_ns _ _ _ _ N2), (cnt_ns _ _ _ _ N2) by auto. specialize (A1 c Hc). specialize (A2 c Hc). specialize (Same c Hc). destruct ((0 <? _) && _) eqn:Q; lia. }
    assert (S2 : csum (fun k => if cnt t k <=? cnt r k then cnt t k else 0) both = csum (fun c => if cell_hits c ids2 <=? cell_hits c ids1 then cell_hits c ids2 else 0) all_cells).
    { unfold both. rewrite csum_filter, csum_map. apply csum_ext. intros c Hc. apply all_cells_in in Hc. rewrite (age_ns _ _ _ _ N1), (age_ns _ _ _ _ N2), (cnt_ns _ _ _ _ N1), (cnt_ns _ _ _ _ N2) by auto. specialize (A1 c Hc). specialize (A2 c Hc). specialize (Same c Hc). destruct ((0 <? _) && _) eqn:Q; [reflexivity|]. destruct (_ <=? _); lia. }
    pose proof (csum_hits ids2 (bu_wf _ _ U2)) as T2.
    assert (I1 : fold_left (fun c k => u16 (c + cnt t k)) both 0 = 8 * Z.of_nat (length ids2)).
    { pose proof (fold_mod 65536 (cnt t) both ltac:(lia) 0) as F. rewrite Z.add_0_l, S1, T2, (Z.mod_small (8 * _)) in F by lia. exact F. }
    assert (LE : forall c, In c all_cells -> (if cell_hits c ids2 <=? cell_hits c ids1 then cell_hits c ids2 else 0) <= cell_hits c ids2) by (intros c _; pose proof (cell_hits_nonneg c ids2); destruct (_ <=? _); lia).
    assert (I2 : fold_left (fun c k => if cnt t k <=? cnt r k then u16 (c + cnt t k) else c) both 0 = csum (fun c => if cell_hits c ids2 <=? cell_hits c ids1 then cell_hits c ids2 else 0) all_cells).
    { pose proof (fold_mod 65536 (fun k => if cnt t k <=? cnt r k then cnt t k else 0) both ltac:(lia) 0) as F. rewrite Z.add_0_l, S2 in F. rewrite (Z.mod_small (csum _ _)) in F.
      - rewrite <- F. clear F. assert (G : forall s, 0 <= s < 65536 -> fold_left (fun c k => if cnt t k <=? cnt r k then u16 (c + cnt t k) else c) both s = fold_left (fun c x => (c + (if cnt t x <=? cnt r x then cnt t x else 0)) mod 65536) both s); [|apply (G 0); lia].
        clear S1 S2 I1. clearbody both. induction both as [|k bs IH]; intros s Hs; [reflexivity|]. cbn [fold_left]. destruct (cnt t k <=? cnt r k); [apply IH; apply Z.mod_pos_bound; lia|]. rewrite Z.add_0_r, Z.mod_small by lia. apply IH. lia.
      - split; [apply csum_nonneg; intros c _; pose proof (cell_hits_nonneg c ids2); destruct (_ <=? _); lia|]. pose proof (csum_le _ _ _ LE). lia. }
    rewrite I1, I2, <- T2, Z.eqb_eq. split.
    + intros Q. symmetry in Q. rewrite csum_eq_iff in Q by exact LE. intros x V. specialize (Q x (proj2 (all_cells_in x) V)). cbv beta in Q. pose proof (cell_hits_nonneg x ids2). pose proof (cell_hits_nonneg x ids1). split; [destruct (Z.leb_spec (cell_hits x ids2) (cell_hits x ids1)); lia|apply Same; auto].
    + intros Q. symmetry. apply csum_eq_iff; [exact LE|]. intros x Hx. apply all_cells_in in Hx. destruct (Q x Hx) as [Q1 _]. replace (_ <=? _) with true by lia. reflexivity.
Qed.
Lemma built_intersect_age ids1 ids2 r t : Built ids1 r -> Built ids2 t -> exists h, nbf_intersect_age r t = Ok h /\
  (0 < h <-> Z.of_nat (length ids2) mod 32 <> 0 /\ forall x, valid x -> 0 < cell_hits x ids2 -> 0 < cell_hits x ids1).
Proof.
  intros U1 U2. pose proof (bu_len _ _ U1) as L1. pose proof (bu_len _ _ U2) as L2.
  destruct (bu_ns _ _ U1) as (ag1 & N1 & A1). destruct (bu_ns _ _ U2) as (ag2 & N2 & A2). unfold nbf_intersect_age. rewrite (shape_ok _ _ _ _ _ _ N1 N2). cbn [negb]. eexists. split; [reflexivity|].
  set (ks := filter (fun k => 0 <? age t k) (cells r)).
  assert (I : fold_left (fun c k => u8 (c + cnt t k)) ks 0 = (8 * Z.of_nat (length ids2)) mod 256).
  { pose proof (fold_mod 256 (cnt t) ks ltac:(lia) 0) as F. rewrite Z.add_0_l in F. change (0 mod 256) with 0 in F. unfold u8. rewrite F. f_equal. rewrite <- (csum_hits ids2 (bu_wf _ _ U2)). unfold ks. rewrite (cells_map _ _ _ N1), csum_filter, csum_map. apply csum_ext.
    intros c Hc. apply all_cells_in in Hc. rewrite (age_ns _ _ _ _ N2), (cnt_ns _ _ _ _ N2) by auto. specialize (A2 c Hc). destruct (0 <? ag2 c) eqn:Q; lia. }
  rewrite I. set (n2 := Z.of_nat (length ids2)) in *. assert (M : (8 * n2) mod 256 = 8 * (n2 mod 32)) by (change 256 with (8 * 32); apply Zmult_mod_distr_l). rewrite M. pose proof (Z.mod_pos_bound n2 32 ltac:(lia)).
  assert (G : forall ks, (forall k, In k ks -> exists x, valid x /\ k = addr_of x) -> forall s, 0 <= s -> 
    (0 < fold_left (fun c k => if 0 <? age r k then if c <? age r k then c else age r k else 0) ks s <-> 0 < s /\ forall k, In k ks -> 0 < age r k)).
  { clear ks I. induction ks as [|k ks IH]; intros K s Hs; cbn [fold_left]; [split; [intros; split; [auto|intros ? []]|intros []; auto]|].
    rewrite IH; [|intros; apply K; right; auto|destruct (0 <? age r k) eqn:?; [destruct (s <? age r k) eqn:?|]; lia]. split.
    - intros [P Q]. destruct (Z.ltb_spec 0 (age r k)); [|lia]. split; [destruct (s <? age r k) eqn:?; lia|]. intros k' [<-|Hk]; auto.
    - intros [P Q]. pose proof (Q k (or_introl eq_refl)). split; [|intros k' Hk; apply Q; right; auto]. replace (0 <? age r k) with true by lia. destruct (s <? age r k) eqn:?; lia. }
  assert (K : forall k, In k ks -> exists x, valid x /\ k = addr_of x) by (intros k Hk; apply filter_In in Hk as [Hk _]; apply (cells_in _ _ _ _ N1) in Hk; exact Hk).
  specialize (G ks K 256 ltac:(lia)).
  assert (Sup : (forall k, In k ks -> 0 < age r k) <-> forall x, valid x -> 0 < cell_hits x ids2 -> 0 < cell_hits x ids1).
  { split.
    - intros Q x V P. assert (Hx : In (addr_of x) ks). { apply filter_In. split; [apply (cells_in _ _ _ _ N1); eauto|]. rewrite (age_ns _ _ _ _ N2) by auto. specialize (A2 x V). lia. } apply Q in Hx. rewrite (age_ns _ _ _ _ N1) in Hx by auto. specialize (A1 x V). lia.
    - intros Q k Hk. pose proof Hk as Hk'. apply K in Hk as (x & V & ->). apply filter_In in Hk' as [_ P]. rewrite (age_ns _ _ _ _ N2) in P by auto. rewrite (age_ns _ _ _ _ N1) by auto. specialize (A1 x V). specialize (A2 x V). specialize (Q x V). lia. }
  rewrite <- Sup. destruct (Z.eqb_spec (8 * (n2 mod 32)) 0); [split; lia|]. rewrite G. split; [intros [_ Q]; split; [lia|auto]|intros [_ Q]; split; [lia|auto]].
Qed.
Lemma built_similarity ids1 ids2 a b : Built ids1 a -> Built ids2 b -> exists i u, nbf_similarity a b = Ok (i, u) /\ 0 <= i <= u /\
  (i = u <-> forall x, valid x -> cell_hits x ids1 = cell_hits x ids2) /\ (i = 0 <-> forall x, valid x -> cell_hits x ids1 = 0 \/ cell_hits x ids2 = 0) /\ i + u = 8 * Z.of_nat (length ids1 + length ids2).
Proof.
  intros U1 U2. pose proof (bu_len _ _ U1) as L1. pose proof (bu_len _ _ U2) as L2. pose proof (bu_free _ _ U1) as F1. pose proof (bu_free _ _ U2) as F2.
  destruct (bu_ns _ _ U1) as (ag1 & N1 & A1). destruct (bu_ns _ _ U2) as (ag2 & N2 & A2). unfold nbf_similarity. rewrite (shape_ok _ _ _ _ _ _ N1 N2). cbn [negb orb].
  replace (64 <? free_items a) with false by lia. replace (64 <? free_items b) with false by lia. cbn [orb]. eexists _, _. split; [reflexivity|]. rewrite (cells_map _ _ _ N1).
  pose proof (csum_hits ids1 (bu_wf _ _ U1)) as T1. pose proof (csum_hits ids2 (bu_wf _ _ U2)) as T2.
  set (mn := csum (fun c => Z.min (cell_hits c ids1) (cell_hits c ids2)) all_cells). set (mx := csum (fun c => Z.max (cell_hits c ids1) (cell_hits c ids2)) all_cells).
  assert (P : forall c ids, 0 <= cell_hits c ids) by (intros; apply cell_hits_nonneg).
  assert (Sm : mn + mx = 8 * Z.of_nat (length ids1 + length ids2)). { unfold mn, mx. rewrite <- csum_plus. rewrite (csum_ext _ (fun c => cell_hits c ids1 + cell_hits c ids2)) by (intros; lia). rewrite csum_plus. lia. }
  assert (B1 : 0 <= mn) by (apply csum_nonneg; intros c _; pose proof (P c ids1); pose proof (P c ids2); lia). assert (B2 : mn <= mx) by (apply csum_le; intros; lia).
  assert (E1 : fold_left (fun c k => if (0 <? cnt a k) && (0 <? cnt b k) then u16 (c + Z.min (cnt a k) (cnt b k)) else c) (map addr_of all_cells) 0 = mn).
  { pose proof (fold_mod 65536 (fun k => Z.min (cnt a k) (cnt b k)) (map addr_of all_cells) ltac:(lia) 0) as F. rewrite Z.add_0_l, csum_map in F. rewrite (csum_ext _ (fun c => Z.min (cell_hits c ids1) (cell_hits c ids2))) in F.
    2:{ intros c Hc. apply all_cells_in in Hc. rewrite (cnt_ns _ _ _ _ N1), (cnt_ns _ _ _ _ N2) by auto. reflexivity. }
    fold mn in F. rewrite (Z.mod_small mn) in F by lia. rewrite <- F. clear F.
    assert (G : forall cs, (forall c, In c cs -> valid c) -> forall s, 0 <= s < 65536 -> fold_left (fun c k => if (0 <? cnt a k) && (0 <? cnt b k) then u16 (c + Z.min (cnt a k) (cnt b k)) else c) (map addr_of cs) s = fold_left (fun c x => (c + Z.min (cnt a x) (cnt b x)) mod 65536) (map addr_of cs) s).
    { induction cs as [|c cs IH]; intros V s Hs; [reflexivity|]. cbn [map fold_left]. pose proof (V c (or_introl eq_refl)) as Vc. assert (V' : forall x, In x cs -> valid x) by (intros; apply V; right; auto).
      destruct ((0 <? cnt a (addr_of c)) && (0 <? cnt b (addr_of c))) eqn:Q; [apply IH; auto; apply Z.mod_pos_bound; lia|]. rewrite (cnt_ns _ _ _ _ N1), (cnt_ns _ _ _ _ N2) in Q |- * by auto. pose proof (P c ids1). pose proof (P c ids2).
      replace (Z.min _ _) with 0 by lia. rewrite Z.add_0_r, Z.mod_small by lia. apply IH; auto. }
    apply G; [intros c Hc; apply all_cells_in; auto|lia]. }
  assert (E2 : fold_left (fun c k => u16 (c + Z.max (cnt a k) (cnt b k))) (map addr_of all_cells) 0 = mx).
  { pose proof (fold_mod 65536 (fun k => Z.max (cnt a k) (cnt b k)) (map addr_of all_cells) ltac:(lia) 0) as F. rewrite Z.add_0_l, csum_map in F. rewrite (csum_ext _ (fun c => Z.max (cell_hits c ids1) (cell_hits c ids2))) in F.
    2:{ intros c Hc. apply all_cells_in in Hc. rewrite (cnt_ns _ _ _ _ N1), (cnt_ns _ _ _ _ N2) by auto. reflexivity. }
    fold mx in F. rewrite (Z.mod_small mx) in F by lia. exact F. }
  rewrite E1, E2. split; [lia|]. split; [|split; [|exact Sm]].
  - unfold mn, mx. rewrite csum_eq_iff by (intros; lia). split; intros Q x V; [apply all_cells_in in V; specialize (Q x V)|apply all_cells_in in V; specialize (Q x V)]; lia.
  - assert (Z0 : csum (fun _ : Z * Z => 0) all_cells = 0) by (generalize all_cells; induction l as [|? l IHl]; [reflexivity|]; cbn; exact IHl). unfold mn. rewrite <- Z0. split.
    + intros Q. symmetry in Q. rewrite csum_eq_iff in Q by (intros c _; pose proof (P c ids1); pose proof (P c ids2); lia). intros x V. apply all_cells_in in V. specialize (Q x V). cbv beta in Q. pose proof (P x ids1); pose proof (P x ids2). lia.
    + intros Q. symmetry. apply csum_eq_iff; [intros c _; pose proof (P c ids1); pose proof (P c ids2); lia|]. intros x V. apply all_cells_in in V. specialize (Q x V). pose proof (P x ids1); pose proof (P x ids2). lia.
Qed.

(** * Removing and counting down *)
Record Aged (lo : Z) (ids : list key) (b : bloom) : Prop := {
  ad_wf : Forall wf_key ids; ad_len : Z.of_nat (length ids) <= 64; ad_free : free_items b = 64 - Z.of_nat (length ids);
  ad_ns : exists ag, NS ag (fun c => cell_hits c ids) b /\ forall c, valid c -> 0 <= ag c <= 255 /\ (0 < cell_hits c ids -> lo <= ag c) }.
Lemma built_aged ids b : Built ids b -> Aged 128 ids b.
Proof. intros [? ? ? (ag & N & A)]. constructor; auto. exists ag. split; auto. intros c V. specialize (A c V). lia. Qed.
Lemma aged_check lo ids b id : 0 < lo -> Aged lo ids b -> wf_key id -> nbf_check b id = Ok (routed ids id).
Proof.
  intros Hlo Bu W. destruct (ad_ns _ _ _ Bu) as (ag & N & A). rewrite (ns_check _ _ _ _ N W). f_equal. apply forallb_ext_in. intros c Hc. specialize (A c (valid_in id c W Hc)). pose proof (cell_hits_nonneg c ids). destruct (Z.ltb_spec 0 (cell_hits c ids)); lia.
Qed.
Lemma cell_hits_remove c id l : In id l -> cell_hits c (remove1 id l) = cell_hits c l - ccount c (cells_of id).
Proof.
  induction l as [|x l IH]; [intros []|]. intros H. cbn [remove1]. destruct (key_eqb x id) eqn:E.
  - apply key_eqb_eq in E. subst. rewrite cell_hits_cons. lia.
  - rewrite !cell_hits_cons, IH; [lia|]. destruct H as [->|H]; auto. assert (key_eqb id id = true) by (apply key_eqb_eq; auto). congruence.
Qed.
Lemma remove1_forall {P : key -> Prop} id l : Forall P l -> Forall P (remove1 id l).
Proof. induction 1 as [|x l H F IH]; cbn [remove1]; auto. destruct (key_eqb x id); auto. Qed.
Lemma iter_sub k v : 0 <= v - Z.of_nat k -> v < 256 -> Nat.iter k (fun c => u8 (c - 1)) v = v - Z.of_nat k.
Proof. induction k as [|k IH]; intros H1 H2; [cbn; lia|]. rewrite iter_S, IH, u8_id by lia. lia. Qed.
Lemma halves lo k v : 0 <= k <= 2 -> 0 <= v <= 255 -> 0 <= Nat.iter (Z.to_nat k) (fun a => Z.shiftr a 1) v <= 255 /\ (0 <= lo <= v -> lo / 4 <= Nat.iter (Z.to_nat k) (fun a => Z.shiftr a 1) v).
Proof.
  intros Hk Hv. assert (E : k = 0 \/ k = 1 \/ k = 2) by lia. destruct E as [->|[->| ->]].
  - change (Nat.iter (Z.to_nat 0) (fun a => Z.shiftr a 1) v) with v. split; [lia|]. intros H. Z.to_euclidean_division_equations; lia.
  - change (Nat.iter (Z.to_nat 1) (fun a => Z.shiftr a 1) v) with (Z.shiftr v 1). rewrite shiftr1. split; [|intros H]; Z.to_euclidean_division_equations; lia.
  - change (Nat.iter (Z.to_nat 2) (fun a => Z.shiftr a 1) v) with (Z.shiftr (Z.shiftr v 1) 1). rewrite !shiftr1. split; [|intros H]; Z.to_euclidean_division_equations; lia.
Qed.
Lemma aged_remove lo ids b x : 0 <= lo -> Aged lo ids b -> In x ids -> Z.of_nat (length ids) < 64 -> exists b', nbf_remove b x = Ok b' /\ Aged (lo / 4) (remove1 x ids) b'.
Proof.
  intros Hlo Bu Hx Hl. destruct (ad_ns _ _ _ Bu) as (ag & N & A). assert (W : wf_key x) by (pose proof (ad_wf _ _ _ Bu) as F; rewrite Forall_forall in F; auto). pose proof (ad_free _ _ _ Bu) as F.
  destruct (ns_remove ag _ b x N W) as (b' & E & F' & N'); [lia|]. exists b'. split; auto. pose proof (remove_length x ids Hx) as RL. constructor; [apply remove1_forall; apply Bu|lia|lia|].
  eexists. split; [apply (ns_ext _ _ _ _ _ N'); [reflexivity|]|].
  - intros c V. unfold upd. rewrite cell_hits_remove by auto. pose proof (cell_hits_in c x ids Hx). pose proof (ccount_nonneg c (cells_of x)). pose proof (hits64 ids c (ad_wf _ _ _ Bu) (ad_len _ _ _ Bu)). rewrite iter_sub by lia. lia.
  - intros c V. cbv beta. unfold upd. specialize (A c V). pose proof (ccount_nonneg c (cells_of x)). pose proof (ccount_two c x W). destruct (halves lo (ccount c (cells_of x)) (ag c)) as [R1 R2]; [lia|lia|]. split; auto.
    intros P. apply R2. rewrite cell_hits_remove in P by auto. lia.
Qed.
Lemma aged_remove_all xs : forall lo ids b rest, 0 <= lo -> Aged lo ids b -> Z.of_nat (length ids) < 64 -> removed xs ids = Some rest -> exists b', remove_all b xs = Ok b' /\ Aged (lo / 4 ^ Z.of_nat (length xs)) rest b'.
Proof.
  induction xs as [|x xs IH]; intros lo ids b rest Hlo Bu Hl R; cbn [removed remove_all length] in *.
  - injection R as <-. exists b. split; auto. change (4 ^ Z.of_nat 0) with 1. rewrite Z.div_1_r. exact Bu.
  - destruct (in_dec (list_eq_dec Z.eq_dec) x ids) as [Hx|]; [|discriminate]. destruct (aged_remove lo ids b x Hlo Bu Hx Hl) as (b1 & E1 & Bu1). rewrite E1. cbn [obind]. pose proof (remove_length x ids Hx).
    destruct (IH (lo / 4) (remove1 x ids) b1 rest) as (b' & E' & Bu'); auto; [apply Z.div_pos; lia|lia|]. exists b'. split; auto. rewrite Z.div_div in Bu' by (try apply Z.pow_pos_nonneg; lia). rewrite Nat2Z.inj_succ, Z.pow_succ_r by lia. exact Bu'.
Qed.
Lemma built_count_dec ids b id : Built ids b -> ids <> [] -> wf_key id -> exists b', nbf_count_dec b = Ok b' /\ nbf_check b' id = Ok (forallb (fun c => 2 <=? cell_hits c ids) (cells_of id)).
Proof.
  intros Bu Hne W. pose proof (bu_free _ _ Bu) as F. pose proof (bu_len _ _ Bu) as L. destruct (bu_ns _ _ Bu) as (ag & N & A). unfold nbf_count_dec. assert (0 < Z.of_nat (length ids)) by (destruct ids; [congruence|cbn; lia]).
  replace (free_items b <? 64) with true by lia. destruct (ns_loop _ _ b (age b) (fun k => if 0 <? cnt b k then cnt b k - 1 else cnt b k) N) as (b' & E & F' & N'). rewrite E. cbn [obind]. eexists. split; [reflexivity|].
  apply (ns_free _ _ _ (u16 (free_items b + 1))) in N'. rewrite (ns_check _ _ _ _ N' W). f_equal. apply forallb_ext_in. intros c Hc. pose proof (valid_in id c W Hc) as V. rewrite (age_ns _ _ _ _ N), (cnt_ns _ _ _ _ N) by auto. specialize (A c V).
  pose proof (cell_hits_nonneg c ids). destruct (Z.ltb_spec 0 (cell_hits c ids)); lia.
Qed.
