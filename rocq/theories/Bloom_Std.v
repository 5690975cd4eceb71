(** Proofs for the standard and the scalable filter. *)
From Verif Require Import Base Dhkey_Model Bloom_Model Bloom_Spec.

Lemma zrange_in n k : In k (zrange n) <-> 0 <= k < n.
Proof.
  unfold zrange. rewrite in_map_iff. split.
  - intros (x & <- & H). rewrite in_seq in H. lia.
  - intros H. exists (Z.to_nat k). rewrite in_seq. lia.
Qed.
Lemma shiftr128 j : 0 <= j < 8 -> Z.shiftr 128 j = 2 ^ (7 - j).
Proof. intros H. assert (E : j = 0 \/ j = 1 \/ j = 2 \/ j = 3 \/ j = 4 \/ j = 5 \/ j = 6 \/ j = 7) by lia. repeat (destruct E as [->|E]; [reflexivity|]). subst. reflexivity. Qed.
Lemma land_pow v i : 0 <= i -> (Z.land v (2 ^ i) =? 0) = negb (Z.testbit v i).
Proof.
  intros H. destruct (Z.testbit v i) eqn:E; cbn.
  - apply Z.eqb_neq. intros Z0. apply (f_equal (fun z => Z.testbit z i)) in Z0. rewrite Z.land_spec, E, Z.pow2_bits_true, Z.bits_0 in Z0 by lia. discriminate.
  - apply Z.eqb_eq. apply Z.bits_inj'. intros k Hk. rewrite Z.land_spec, Z.bits_0, Z.pow2_bits_eqb by lia.
    destruct (Z.eqb_spec i k); [subst; rewrite E; auto|apply andb_false_r].
Qed.
Definition bit (m : mem) (off pos : Z) : bool := Z.testbit (at_ m (off + pos / 8)) (7 - pos mod 8).

Section Block.
  Variables (n off : Z).
  Hypothesis Hn : 0 < n.
  Hypothesis H8 : n mod 8 = 0.
  Hypothesis Hoff : 0 <= off.
  Lemma pos_range w : 0 <= w mod n < n. Proof. apply Z.mod_pos_bound. lia. Qed.
  Lemma byte_range pos : 0 <= pos < n -> 0 <= pos / 8 < n / 8.
  Proof. intros H. pose proof (Z.div_mod n 8 ltac:(lia)). split; [apply Z.div_pos; lia|]. apply Z.div_lt_upper_bound; lia. Qed.
  Lemma set_bit_spec m w : off + n / 8 <= len m -> exists m', set_bit off n w m = Ok m' /\ len m' = len m /\
    (forall pos, 0 <= pos < n -> bit m' off pos = (w mod n =? pos) || bit m off pos) /\
    (forall a, a < off \/ off + n / 8 <= a -> at_ m' a = at_ m a).
  Proof.
    intros L. unfold set_bit, modulo. destruct (Z.eqb_spec n 0); [lia|]. cbn [obind]. unfold modify, rd.
    pose proof (pos_range w) as P. pose proof (byte_range _ P) as B.
    replace ((0 <=? off + w mod n / 8) && (off + w mod n / 8 <? len m)) with true by lia. cbn [obind]. eexists. split; [reflexivity|]. split; [reflexivity|]. split.
    - intros pos Hp. unfold bit, put. cbn [at_]. pose proof (Z.div_mod pos 8 ltac:(lia)). pose proof (Z.div_mod (w mod n) 8 ltac:(lia)).
      pose proof (Z.mod_pos_bound pos 8 ltac:(lia)). pose proof (Z.mod_pos_bound (w mod n) 8 ltac:(lia)).
      destruct (Z.eqb_spec (off + pos / 8) (off + w mod n / 8)) as [E|E].
      + rewrite Z.lor_spec, shiftr128, Z.pow2_bits_eqb by lia. rewrite <- E. rewrite orb_comm. f_equal. lia.
      + replace (w mod n =? pos) with false by lia. reflexivity.
    - intros a Ha. unfold put. cbn [at_]. destruct (Z.eqb_spec a (off + w mod n / 8)); [lia|reflexivity].
  Qed.
  Lemma test_bit_spec m w : off + n / 8 <= len m -> test_bit off n m w = Ok (bit m off (w mod n)).
  Proof.
    intros L. unfold test_bit, modulo. destruct (Z.eqb_spec n 0); [lia|]. cbn [obind]. unfold rd.
    pose proof (pos_range w) as P. pose proof (byte_range _ P) as B.
    replace ((0 <=? off + w mod n / 8) && (off + w mod n / 8 <? len m)) with true by lia. cbn [obind].
    pose proof (Z.mod_pos_bound (w mod n) 8 ltac:(lia)). rewrite shiftr128, land_pow, negb_involutive by lia. reflexivity.
  Qed.
  Lemma each_set ws : forall m, off + n / 8 <= len m -> exists m', each ws (set_bit off n) m = Ok m' /\ len m' = len m /\
    (forall pos, 0 <= pos < n -> bit m' off pos = existsb (fun v => v mod n =? pos) ws || bit m off pos) /\
    (forall a, a < off \/ off + n / 8 <= a -> at_ m' a = at_ m a).
  Proof.
    induction ws as [|w ws IH]; intros m L; cbn [each existsb]; [exists m; auto|].
    destruct (set_bit_spec m w L) as (m1 & E1 & L1 & B1 & F1). rewrite E1. cbn [obind]. destruct (IH m1) as (m2 & E2 & L2 & B2 & F2); [lia|].
    exists m2. split; auto. split; [lia|]. split; [intros pos Hp; rewrite B2, B1 by auto; destruct (existsb _ ws), (w mod n =? pos), (bit m off pos); auto|].
    intros a Ha. rewrite F2, F1 by auto. reflexivity.
  Qed.
  Lemma every_test m ids : off + n / 8 <= len m -> (forall pos, 0 <= pos < n -> bit m off pos = existsb (existsb (fun v => v mod n =? pos)) ids) ->
    forall id, every id (test_bit off n m) = Ok (covered n ids id).
  Proof.
    intros L B id. induction id as [|w id IH]; cbn [every]; [reflexivity|]. rewrite test_bit_spec by auto. cbn [obind].
    rewrite B by apply pos_range. unfold covered. cbn [forallb]. unfold hit at 1. destruct (existsb _ ids); auto.
  Qed.
  Lemma every_full_test m ids : off + n / 8 <= len m -> (forall pos, 0 <= pos < n -> bit m off pos = existsb (existsb (fun v => v mod n =? pos)) ids) ->
    forall id, every_full id (test_bit off n m) = Ok (covered n ids id).
  Proof.
    intros L B id. induction id as [|w id IH]; cbn [every_full]; [reflexivity|]. rewrite test_bit_spec by auto. cbn [obind]. rewrite IH. cbn [obind].
    rewrite B by apply pos_range. reflexivity.
  Qed.
End Block.

(** * Standard filter *)
Record StdInv (n : Z) (ids : list key) (b : bloom) : Prop := mkStd {
  st_size : size b = n; st_d : d b = 1; st_nb : num_blocks b = 1; st_len : len (bits b) = n / 8;
  st_bits : forall pos, 0 <= pos < n -> bit (bits b) 0 pos = existsb (existsb (fun v => v mod n =? pos)) ids;
  st_free : free_items b = n / 16 - Z.of_nat (length ids) }.
Section Std.
  Variable n : Z.
  Hypothesis Hn : 0 < n <= 524280.
  Hypothesis H8 : n mod 8 = 0.
  Lemma std_new : StdInv n [] (standard_create n).
  Proof.
    constructor; cbn; auto; [intros; unfold bit; cbn [calloc at_ bits standard_create]; apply Z.bits_0|].
    unfold u16. rewrite Z.mod_small; [lia|]. split; [apply Z.div_pos; lia|apply Z.div_lt_upper_bound; lia].
  Qed.
  Lemma std_add ids b id : StdInv n ids b -> 
    (Z.of_nat (length ids) = n / 16 -> standard_add b id = Abort) /\
    (Z.of_nat (length ids) < n / 16 -> exists b', standard_add b id = Ok b' /\ StdInv n (id :: ids) b').
  Proof.
    intros [Hs Hd Hb Hl Hbits Hf]. unfold standard_add. split; intros H; [replace (free_items b =? 0) with true by lia; reflexivity|].
    replace (free_items b =? 0) with false by lia. rewrite Hs.
    destruct (each_set n 0 ltac:(lia) H8 ltac:(lia) id (bits b)) as (m & E & L & B & _); [lia|]. rewrite E. cbn [obind].
    eexists. split; [reflexivity|]. constructor; cbn; auto; [lia|intros pos Hp; rewrite B, Hbits by auto; reflexivity|].
    assert (n / 16 < 65536) by (apply Z.div_lt_upper_bound; lia). rewrite Hf. unfold u16. rewrite Z.mod_small; lia.
  Qed.
  Lemma std_check ids b id : StdInv n ids b -> standard_check b id = Ok (covered n ids id).
  Proof. intros [Hs Hd Hb Hl Hbits Hf]. unfold standard_check. rewrite Hs. apply every_test; auto; lia. Qed.
  Lemma loop_ok m k f : len m = k -> 0 <= k <= 65535 -> loop16 m k f = Ok (mkMem k (fun i => if (0 <=? i) && (i <? k) then f i (at_ m i) else at_ m i)).
  Proof. intros L R. unfold loop16. replace (65535 <? k) with false by lia. rewrite L. replace (k <? k) with false by lia. reflexivity. Qed.
  Lemma n8 : 0 <= n / 8 <= 65535. Proof. split; [apply Z.div_pos; lia|]. apply Z.div_le_upper_bound; lia. Qed.
  Lemma std_union ids1 ids2 r f : StdInv n ids1 r -> StdInv n ids2 f ->
    (n / 16 < Z.of_nat (length ids1 + length ids2) -> standard_union r f = Abort) /\
    (Z.of_nat (length ids1 + length ids2) <= n / 16 -> exists b, standard_union r f = Ok b /\ StdInv n (ids1 ++ ids2) b).
  Proof.
    intros [Hs Hd Hb Hl Hbits Hf] [Hs' Hd' Hb' Hl' Hbits' Hf']. unfold standard_union, same_shape. rewrite Hs, Hs', Hd, Hd', Hb, Hb', !Z.eqb_refl. cbn [andb negb].
    split; intros H; [replace (free_items f + free_items r <? n / 16) with true by lia; reflexivity|].
    replace (free_items f + free_items r <? n / 16) with false by lia. rewrite Z.mul_1_r, Hl'. replace (n / 8 <? n / 8) with false by lia.
    pose proof n8. rewrite loop_ok by auto. cbn [obind]. eexists. split; [reflexivity|].
    constructor; cbn [set_free set_bits size d num_blocks bits free_items len]; auto.
    - intros pos Hp. unfold bit. cbn [at_]. pose proof (byte_range n H8 pos Hp). replace ((0 <=? 0 + pos / 8) && (0 + pos / 8 <? n / 8)) with true by lia.
      rewrite Z.lor_spec. rewrite existsb_app. f_equal; [apply Hbits|apply Hbits']; auto.
    - rewrite app_length, Hf, Hf'. assert (n / 16 < 65536) by (apply Z.div_lt_upper_bound; lia). unfold u16. rewrite Z.mod_small; lia.
  Qed.
  Lemma standard_build e : 
    (Z.of_nat (length (items e)) <= n / 16 -> exists b, standard n e = Ok b /\ StdInv n (items e) b) /\
    (n / 16 < Z.of_nat (length (items e)) -> standard n e = Abort).
  Proof.
    assert (0 <= n / 16) by (apply Z.div_pos; lia). unfold standard.
    induction e as [|e IH id|e1 [P1 N1] e2 [P2 N2]]; cbn [build items length].
    - split; [intros _; eexists; split; [reflexivity|apply std_new]|cbn [length]; lia].
    - destruct IH as [P N]. split; intros L.
      + destruct P as (b & E & I); [lia|]. rewrite E. cbn [obind]. destruct (std_add _ _ id I) as [_ A]. apply A. lia.
      + destruct (Z.lt_ge_cases (n / 16) (Z.of_nat (length (items e)))) as [Q|Q]; [rewrite (N Q); reflexivity|].
        destruct P as (b & E & I); [lia|]. rewrite E. cbn [obind]. destruct (std_add _ _ id I) as [A _]. apply A. lia.
    - rewrite app_length. split; intros L.
      + destruct P1 as (b1 & E1 & I1); [lia|]. destruct P2 as (b2 & E2 & I2); [lia|]. rewrite E1. cbn [obind]. rewrite E2. cbn [obind].
        apply (std_union _ _ _ _ I1 I2). lia.
      + destruct (Z.lt_ge_cases (n / 16) (Z.of_nat (length (items e1)))) as [Q|Q]; [rewrite (N1 Q); reflexivity|].
        destruct P1 as (b1 & E1 & I1); [lia|]. rewrite E1. cbn [obind].
        destruct (Z.lt_ge_cases (n / 16) (Z.of_nat (length (items e2)))) as [Q2|Q2]; [rewrite (N2 Q2); reflexivity|].
        destruct P2 as (b2 & E2 & I2); [lia|]. rewrite E2. cbn [obind]. apply (std_union _ _ _ _ I1 I2). lia.
  Qed.
  Lemma std_intersect ids1 ids2 r f : StdInv n ids1 r -> StdInv n ids2 f ->
    exists c b, standard_intersect r f = Ok (c, b) /\ (forall id, standard_check b id = Ok (covered n ids1 id && covered n ids2 id)) /\
      (c = false -> forall id, id <> [] -> covered n ids1 id && covered n ids2 id = false).
  Proof.
    intros [Hs Hd Hb Hl Hbits Hf] [Hs' Hd' Hb' Hl' Hbits' Hf']. unfold standard_intersect, same_shape. rewrite Hs, Hs', Hd, Hd', Hb, Hb', !Z.eqb_refl. cbn [andb negb].
    rewrite Z.mul_1_r, Hl'. replace (n / 8 <? n / 8) with false by lia. pose proof n8. rewrite loop_ok by auto. cbn [obind].
    set (m := mkMem _ _). eexists _, _. split; [reflexivity|].
    assert (B : forall pos, 0 <= pos < n -> bit m 0 pos = bit (bits r) 0 pos && bit (bits f) 0 pos).
    { intros pos Hp. unfold bit, m. cbn [at_]. pose proof (byte_range n H8 pos Hp). replace ((0 <=? 0 + pos / 8) && (0 + pos / 8 <? n / 8)) with true by lia. apply Z.land_spec. }
    assert (C : forall id, standard_check (set_free (set_bits r m) 0) id = Ok (covered n ids1 id && covered n ids2 id)).
    { intros id. unfold standard_check. cbn [set_free set_bits size bits]. rewrite Hs. induction id as [|w id IH]; cbn [every]; [reflexivity|].
      rewrite (test_bit_spec n 0); try lia; [|cbn; lia]. cbn [obind]. pose proof (pos_range n ltac:(lia) w). rewrite B, Hbits, Hbits' by auto.
      change (covered n ids1 (w :: id)) with (hit n w ids1 && covered n ids1 id). change (covered n ids2 (w :: id)) with (hit n w ids2 && covered n ids2 id).
      fold (hit n w ids1) (hit n w ids2). destruct (hit n w ids1), (hit n w ids2); cbn [andb]; auto; rewrite ?andb_false_r; auto. }
    split; auto. intros E id Ne. destruct id as [|w id]; [congruence|].
    specialize (C [w]). unfold covered in C. cbn [forallb] in C. rewrite !andb_true_r in C.
    assert (T : hit n w ids1 && hit n w ids2 = false).
    { destruct (hit n w ids1 && hit n w ids2) eqn:T; auto. exfalso.
      pose proof (pos_range n ltac:(lia) w) as Pw. pose proof (byte_range n H8 _ Pw) as Bw. specialize (B _ Pw). rewrite Hbits, Hbits' in B by auto. fold (hit n w ids1) (hit n w ids2) in B. rewrite T in B.
      assert (X : exists k, In k (zrange (n / 8)) /\ negb (at_ m k =? 0) = true); [|apply existsb_exists in X; congruence].
      exists (w mod n / 8). split; [apply zrange_in; lia|]. unfold bit in B. rewrite Z.add_0_l in B.
      destruct (Z.eqb_spec (at_ m (w mod n / 8)) 0) as [Z0|]; auto. rewrite Z0, Z.bits_0 in B. discriminate. }
    unfold covered. cbn [forallb]. rewrite <- andb_assoc. destruct (hit n w ids1); [|reflexivity]. destruct (hit n w ids2); [discriminate|]. cbn. apply andb_false_r.
  Qed.
End Std.

(** * Scalable filter: [bl] are the items of the blocks *)
Record ScInv (n : Z) (bl : list (list key)) (b : bloom) : Prop := mkSc {
  sc_size : size b = n; sc_d : d b = 1; sc_nb : num_blocks b = Z.of_nat (length bl); sc_len : len (bits b) = n / 8 * Z.of_nat (length bl);
  sc_bits : forall j ids, nth_error bl j = Some ids -> forall pos, 0 <= pos < n -> bit (bits b) (n / 8 * Z.of_nat j) pos = existsb (existsb (fun v => v mod n =? pos)) ids;
  sc_last : exists pre l, bl = pre ++ [l] /\ free_items b = n / 16 - Z.of_nat (length l) /\ Z.of_nat (length l) <= n / 16 /\
              Forall (fun x => Z.of_nat (length x) = n / 16) pre }.
Lemma concat_full {A} c (l : list (list A)) : Forall (fun x => Z.of_nat (length x) = c) l -> Z.of_nat (length (concat l)) = c * Z.of_nat (length l).
Proof. induction 1; cbn [concat length]; [lia|]. rewrite app_length. lia. Qed.
Lemma bit_ext m m' off off' pos : (at_ m' (off' + pos / 8) = at_ m (off + pos / 8)) -> bit m' off' pos = bit m off pos.
Proof. unfold bit. intros ->. reflexivity. Qed.
Section Scalable.
  Variables n B : Z.
  Hypothesis Hn : 16 <= n < 1048576.
  Hypothesis H8 : n mod 8 = 0.
  Hypothesis HB : 1 <= B <= 255.
  Hypothesis Hoff : n / 8 * (B - 1) <= 65535.
  Lemma cap_pos : 1 <= n / 16 < 65536. Proof. split; [apply Z.div_le_lower_bound; lia|apply Z.div_lt_upper_bound; lia]. Qed.
  Lemma n8_pos : 1 <= n / 8. Proof. apply Z.div_le_lower_bound; lia. Qed.
  Lemma sc_new : ScInv n [[]] (scalable_create n).
  Proof.
    constructor; cbn [scalable_create size d num_blocks bits free_items calloc len length]; auto; [lia| |].
    - intros j ids E pos Hp. destruct j as [|j]; [|destruct j; discriminate]. injection E as <-. unfold bit. cbn [at_]. apply Z.bits_0.
    - exists [], []. pose proof cap_pos. cbn [length]. rewrite u16_id by lia. repeat split; auto; lia.
  Qed.
  Lemma block_off k : k * n / 8 * 1 = n / 8 * k.
  Proof. pose proof (Z.div_mod n 8 ltac:(lia)) as E. rewrite H8, Z.add_0_r in E. rewrite E at 1. replace (k * (8 * (n / 8))) with (n / 8 * k * 8) by ring. rewrite Z.div_mul by lia. lia. Qed.
  Lemma sc_grow bl b : ScInv n bl b -> Z.of_nat (length bl) < B -> free_items b = 0 ->
    exists b', scalable_grow b = Ok b' /\ ScInv n (bl ++ [[]]) b'.
  Proof.
    intros [Hs Hd Hb Hl Hbits (pre & l & -> & Hf & Hll & HF)] LB F0. pose proof cap_pos. pose proof n8_pos. unfold scalable_grow. rewrite Hs, Hd, Hb, F0, Z.mul_1_r.
    rewrite app_length in *. cbn [length] in *. rewrite (u8_id (_ + 1)) by lia.
    assert (O : n / 8 * Z.of_nat (length pre + 1) <= n / 8 * (B - 1)) by (apply Z.mul_le_mono_nonneg_l; lia).
    assert (O0 : 0 <= n / 8 * Z.of_nat (length pre + 1)) by (apply Z.mul_nonneg_nonneg; lia).
    rewrite (u16_id (n / 8 * _)) by lia. cbn [realloc len].
    replace (n / 8 * (Z.of_nat (length pre + 1) + 1) <? n / 8 * Z.of_nat (length pre + 1) + n / 8) with false by lia.
    eexists. split; [reflexivity|]. constructor; cbn [size d num_blocks bits len free_items]; auto.
    - rewrite !app_length. cbn [length]. lia.
    - rewrite !app_length. cbn [length]. rewrite Nat2Z.inj_add. f_equal. lia.
    - intros j ids E pos Hp. pose proof (byte_range n H8 pos Hp) as Bp.
      destruct (lt_dec j (length (pre ++ [l]))) as [Lj|Lj].
      + rewrite nth_error_app1 in E by auto. rewrite <- (Hbits _ _ E pos Hp). apply bit_ext. cbn [at_]. rewrite app_length in Lj. cbn [length] in Lj.
        assert (n / 8 * Z.of_nat j + n / 8 <= n / 8 * Z.of_nat (length pre + 1)) by nia.
        replace ((_ <=? _) && _) with false by lia. reflexivity.
      + rewrite nth_error_app2 in E by lia. destruct (j - length (pre ++ [l]))%nat as [|q] eqn:Q; [|destruct q; discriminate]. injection E as <-.
        rewrite app_length in *. cbn [length] in *. assert (j = length pre + 1)%nat by lia. subst j. cbn [existsb]. unfold bit. cbn [at_].
        replace ((_ <=? _) && _) with true by lia. apply Z.bits_0.
    - exists (pre ++ [l]), []. split; auto. cbn [length]. rewrite u16_id by lia. split; [lia|]. split; [lia|]. apply Forall_app. split; auto. constructor; auto. lia.
  Qed.
  Lemma sc_put bl b id : ScInv n bl b -> Z.of_nat (length bl) <= B -> free_items b <> 0 ->
    exists pre l b', bl = pre ++ [l] /\
      obind (each id (set_bit (u16 ((num_blocks b - 1) * size b / 8 * d b)) (size b)) (bits b)) (fun m => Ok (set_free (set_bits b m) (u16 (free_items b - 1)))) = Ok b' /\
      ScInv n (pre ++ [l ++ [id]]) b' /\ free_items b' < n / 16.
  Proof.
    intros [Hs Hd Hb Hl Hbits (pre & l & -> & Hf & Hll & HF)] LB F0. pose proof cap_pos. pose proof n8_pos.
    exists pre, l. rewrite Hs, Hd, Hb. rewrite app_length in *. cbn [length] in *. replace (Z.of_nat (length pre + 1) - 1) with (Z.of_nat (length pre)) by lia. rewrite block_off.
    assert (O : n / 8 * Z.of_nat (length pre) <= n / 8 * (B - 1)) by (apply Z.mul_le_mono_nonneg_l; lia).
    assert (O0 : 0 <= n / 8 * Z.of_nat (length pre)) by (apply Z.mul_nonneg_nonneg; lia). rewrite (u16_id (n / 8 * _)) by lia.
    destruct (each_set n (n / 8 * Z.of_nat (length pre)) ltac:(lia) H8 O0 id (bits b)) as (m & E & L & Bm & Fm); [rewrite Hl; nia|].
    rewrite E. cbn [obind]. eexists. split; [reflexivity|]. split; [reflexivity|]. split; [|cbn; rewrite u16_id; lia].
    constructor; cbn [set_free set_bits size d num_blocks bits free_items]; auto.
    - rewrite app_length. cbn [length]. lia.
    - rewrite L, Hl, !app_length. reflexivity.
    - intros j ids Ej pos Hp. pose proof (byte_range n H8 pos Hp) as Bp. destruct (lt_dec j (length pre)) as [Lj|Lj].
      + rewrite nth_error_app1 in Ej by auto. specialize (Hbits j ids). rewrite nth_error_app1 in Hbits by auto. rewrite <- (Hbits Ej pos Hp). apply bit_ext.
        apply Fm. left. nia.
      + rewrite nth_error_app2 in Ej by lia. destruct (j - length pre)%nat as [|q] eqn:Q; [|destruct q; discriminate]. injection Ej as <-.
        assert (j = length pre) by lia. subst j. rewrite Bm by auto. rewrite existsb_app. cbn [existsb]. rewrite orb_false_r, orb_comm. f_equal.
        apply (Hbits (length pre) l); auto. rewrite nth_error_app2 by lia. rewrite Nat.sub_diag. reflexivity.
    - exists pre, (l ++ [id]). split; auto. rewrite app_length. cbn [length]. rewrite Hf. rewrite u16_id by lia. repeat split; auto; lia.
  Qed.
  Lemma sc_add bl b id : ScInv n bl b -> Z.of_nat (length (concat bl)) < n / 16 * B -> exists bl' b', scalable_add b id = Ok b' /\ ScInv n bl' b' /\ concat bl' = concat bl ++ [id] /\ free_items b' < n / 16.
  Proof.
    intros I LB. pose proof cap_pos. unfold scalable_add. pose proof I as I0. destruct I0 as [Hs Hd Hb Hl Hbits (pre & l & -> & Hf & Hll & HF)].
    rewrite concat_app, app_length in LB. cbn [concat] in LB. rewrite app_nil_r in LB. rewrite Nat2Z.inj_add, (concat_full _ _ HF) in LB.
    destruct (Z.eqb_spec (free_items b) 0) as [F0|F0].
    - assert (Z.of_nat (length (pre ++ [l])) < B) by (rewrite app_length; cbn [length]; nia).
      destruct (sc_grow _ _ I) as (b1 & E1 & I1); auto. rewrite E1. cbn [obind].
      destruct (sc_put _ _ id I1) as (pre' & l' & b2 & Eb & E2 & I2 & FF); [rewrite app_length; cbn [length]; lia| |].
      { destruct I1 as [_ _ _ _ _ (pre' & l' & Eq & Hf' & _)]. apply app_inj_tail in Eq. destruct Eq as [_ <-]. cbn [length] in Hf'. lia. }
      rewrite E2. exists (pre' ++ [l' ++ [id]]), b2. split; auto. split; auto. split; auto. apply app_inj_tail in Eb. destruct Eb as [<- <-]. rewrite concat_app. cbn [concat app]. reflexivity.
    - cbn [obind]. destruct (sc_put _ _ id I) as (pre' & l' & b2 & Eb & E2 & I2 & FF); auto; [rewrite app_length; cbn [length]; nia|].
      rewrite E2. exists (pre' ++ [l' ++ [id]]), b2. split; auto. split; auto. split; auto. apply app_inj_tail in Eb. destruct Eb as [<- <-].
      rewrite !concat_app. cbn [concat]. rewrite !app_nil_r, app_assoc. reflexivity.
  Qed.
  Lemma sc_check bl b id : ScInv n bl b -> Z.of_nat (length bl) <= B -> scalable_check b id = Ok (existsb (fun ids => covered n ids id) bl).
  Proof.
    intros [Hs Hd Hb Hl Hbits (pre & l & Ebl & _)] LB. unfold scalable_check, zrange. rewrite Hb, Nat2Z.id, Hs, Hd.
    assert (G : forall suf k last, (forall j ids, nth_error suf j = Some ids -> nth_error bl (k + j) = Some ids) -> (k + length suf = length bl)%nat ->
      any_block (map Z.of_nat (seq k (length suf))) (fun j => every_full id (test_bit (u16 (j * n / 8 * 1)) n (bits b))) last =
      Ok (match suf with [] => last | _ => existsb (fun ids => covered n ids id) suf end)).
    { induction suf as [|s suf IH]; intros k last Hsuf Lk; cbn [length seq map any_block]; [reflexivity|].
      pose proof (Hsuf 0%nat s eq_refl) as N0. rewrite Nat.add_0_r in N0. pose proof n8_pos. cbn [length] in Lk.
      assert (O : n / 8 * Z.of_nat k <= n / 8 * (B - 1)) by (apply Z.mul_le_mono_nonneg_l; lia).
      assert (O0 : 0 <= n / 8 * Z.of_nat k) by (apply Z.mul_nonneg_nonneg; lia).
      rewrite block_off, u16_id by lia. rewrite (every_full_test n (n / 8 * Z.of_nat k) ltac:(lia) H8 O0 _ s); [|rewrite Hl; nia|apply Hbits; auto]. cbn [obind].
      cbn [existsb]. destruct (covered n s id); [reflexivity|]. cbn [orb]. rewrite IH; [destruct suf; reflexivity| |lia].
      intros j ids E. rewrite Nat.add_succ_comm. apply Hsuf. exact E. }
    rewrite G; [|intros; auto|lia]. rewrite Ebl. destruct pre; reflexivity.
  Qed.
  Lemma scalable_all ids : forall bl b, ScInv n bl b -> Z.of_nat (length (concat bl) + length ids) <= n / 16 * B ->
    exists bl' b', add_all scalable_add b ids = Ok b' /\ ScInv n bl' b' /\ concat bl' = concat bl ++ ids /\ (ids = [] \/ free_items b' < n / 16).
  Proof.
    induction ids as [|id ids IH]; intros bl b I L; cbn [add_all]; [exists bl, b; rewrite app_nil_r; auto|]. cbn [length] in L.
    destruct (sc_add bl b id I) as (bl1 & b1 & E1 & I1 & C1 & F1); [lia|]. rewrite E1. cbn [obind].
    destruct (IH bl1 b1 I1) as (bl2 & b2 & E2 & I2 & C2 & F2); [rewrite C1, app_length; cbn [length]; lia|].
    exists bl2, b2. split; auto. split; auto. split; [rewrite C2, C1, <- app_assoc; reflexivity|]. right. destruct F2 as [->|F2]; auto. cbn [add_all] in E2. injection E2 as <-. auto.
  Qed.
  Lemma blocks_bound bl b : ScInv n bl b -> Z.of_nat (length (concat bl)) <= n / 16 * B -> free_items b < n / 16 \/ concat bl = [] -> Z.of_nat (length bl) <= B.
  Proof.
    intros [Hs Hd Hb Hl Hbits (pre & l & -> & Hf & Hll & HF)] L Fr. pose proof cap_pos. rewrite app_length. cbn [length].
    rewrite concat_app, app_length in *. cbn [concat] in *. rewrite app_nil_r in *. rewrite Nat2Z.inj_add, (concat_full _ _ HF) in L.
    destruct Fr as [Fr|Fr]; [nia|]. apply app_eq_nil in Fr. destruct Fr as [F1 _]. pose proof (concat_full _ _ HF) as C. rewrite F1 in C. cbn [length] in C. nia.
  Qed.
End Scalable.
