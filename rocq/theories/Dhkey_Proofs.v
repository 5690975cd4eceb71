From Verif Require Import Base Dhkey_Model Dhkey_Spec.

Ltac Zify.zify_post_hook ::= Z.div_mod_to_equations.

Lemma pow_pos_B n : 0 < 4294967296 ^ Z.of_nat n.
Proof. apply Z.pow_pos_nonneg; lia. Qed.

Lemma pow_S_B n : 4294967296 ^ Z.of_nat (S n) = 4294967296 * 4294967296 ^ Z.of_nat n.
Proof. rewrite Nat2Z.inj_succ, Z.pow_succ_r by lia. reflexivity. Qed.

Lemma kval_range k : Forall is_word k -> 0 <= kval k < 4294967296 ^ Z.of_nat (length k).
Proof.
  induction 1 as [|w k Hw _ IH]; [cbn; lia|].
  cbn [kval length]. rewrite pow_S_B. unfold is_word in Hw.
  pose proof (pow_pos_B (length k)). nia.
Qed.

Lemma kval_inj a b :
  length a = length b -> Forall is_word a -> Forall is_word b -> kval a = kval b -> a = b.
Proof.
  revert b; induction a as [|x a IH]; intros [|y b] Hl Ha Hb E; try discriminate; auto.
  inversion Ha; inversion Hb; subst. cbn [kval length] in *. injection Hl as Hl.
  rewrite Hl in E.
  pose proof (kval_range a H2). pose proof (kval_range b H6).
  rewrite Hl in H. pose proof (pow_pos_B (length b)).
  assert (x = y) by nia. subst. f_equal. apply IH; auto; nia.
Qed.

Lemma cmp_loop_sgn a b :
  length a = length b -> Forall is_word a -> Forall is_word b ->
  np_dhkey_cmp_loop a b = Z.sgn (kval a - kval b).
Proof.
  revert b; induction a as [|x a IH]; intros [|y b] Hl Ha Hb; try discriminate; auto.
  inversion Ha; inversion Hb; subst. cbn [kval length np_dhkey_cmp_loop] in *. injection Hl as Hl.
  pose proof (kval_range a H2). pose proof (kval_range b H6).
  rewrite Hl in *. pose proof (pow_pos_B (length b)).
  destruct (x >? y) eqn:E1; [|destruct (x <? y) eqn:E2].
  - symmetry; apply Z.sgn_pos. assert (x > y) by lia. nia.
  - symmetry; apply Z.sgn_neg. assert (x < y) by lia. nia.
  - assert (x = y) by lia. subst. rewrite IH by auto. f_equal. lia.
Qed.

Lemma cmp_sgn a b : wf_key a -> wf_key b -> np_dhkey_cmp a b = Z.sgn (kval a - kval b).
Proof. intros [La Fa] [Lb Fb]. apply cmp_loop_sgn; congruence || auto. Qed.

Lemma wf_kval_inj a b : wf_key a -> wf_key b -> kval a = kval b -> a = b.
Proof. intros [La Fa] [Lb Fb]. apply kval_inj; congruence || auto. Qed.

Lemma wf_kval_range a : wf_key a -> 0 <= kval a < ring.
Proof. intros [La Fa]. pose proof (kval_range a Fa). rewrite La in H. exact H. Qed.

Lemma equal_spec a b : wf_key a -> wf_key b -> np_dhkey_equal a b = true <-> a = b.
Proof.
  intros [La _] [Lb _]. rewrite <- La in Lb. clear La.
  revert b Lb; induction a as [|x a IH]; intros [|y b] L; try discriminate; cbn; [tauto|].
  destruct (x =? y) eqn:E; cbn.
  - rewrite IH by (cbn in L; congruence). assert (x = y) by lia. subst. split; congruence.
  - split; [discriminate|]. intros H; injection H; lia.
Qed.

(** map2 *)
Lemma map2_length f a b : length a = length b -> length (map2 f a b) = length a.
Proof. revert b; induction a; intros [|y b] L; cbn in *; try discriminate; auto. Qed.

Lemma map2_word f a b :
  (forall x y, is_word x -> is_word y -> is_word (f x y)) ->
  Forall is_word a -> Forall is_word b -> Forall is_word (map2 f a b).
Proof.
  intros Hf Ha; revert b; induction Ha; intros [|y b] Hb; cbn; auto.
  inversion Hb; subst. constructor; auto.
Qed.

Lemma map2_wf f a b :
  (forall x y, is_word x -> is_word y -> is_word (f x y)) ->
  wf_key a -> wf_key b -> wf_key (map2 f a b).
Proof.
  intros Hf [La Fa] [Lb Fb]; split.
  - rewrite map2_length; congruence.
  - apply map2_word; auto.
Qed.

Lemma u32_word x : is_word (u32 x).
Proof. apply u32_range. Qed.

Lemma add_wf a b : wf_key a -> wf_key b -> wf_key (np_dhkey_add a b).
Proof. apply map2_wf; intros; apply u32_word. Qed.
Lemma sub_wf a b : wf_key a -> wf_key b -> wf_key (np_dhkey_sub a b).
Proof. apply map2_wf; intros; apply u32_word. Qed.

Lemma sub_add a b : wf_key a -> wf_key b -> np_dhkey_sub (np_dhkey_add a b) b = a.
Proof.
  intros [La Fa] [Lb Fb]. rewrite <- La in Lb. clear La.
  revert b Lb Fb; induction Fa as [|x a Hx Fa IH]; intros [|y b] L Fb; try discriminate; auto.
  inversion Fb; subst. cbn. f_equal.
  - unfold is_word, u32 in *. lia.
  - apply IH; auto.
Qed.

Lemma add_sub a b : wf_key a -> wf_key b -> np_dhkey_add (np_dhkey_sub a b) b = a.
Proof.
  intros [La Fa] [Lb Fb]. rewrite <- La in Lb. clear La.
  revert b Lb Fb; induction Fa as [|x a Hx Fa IH]; intros [|y b] L Fb; try discriminate; auto.
  inversion Fb; subst. cbn. f_equal.
  - unfold is_word, u32 in *. lia.
  - apply IH; auto.
Qed.

Lemma add_comm a b : np_dhkey_add a b = np_dhkey_add b a.
Proof.
  revert b; induction a; intros [|y b]; cbn; auto. f_equal; auto. f_equal; lia.
Qed.

Lemma add_assoc a b c : np_dhkey_add a (np_dhkey_add b c) = np_dhkey_add (np_dhkey_add a b) c.
Proof.
  revert b c; induction a; intros [|y b] [|z c]; cbn; auto. f_equal.
  - unfold u32. rewrite Zplus_mod_idemp_r, Zplus_mod_idemp_l. f_equal; lia.
  - apply IHa.
Qed.

Lemma add_zero a : wf_key a -> np_dhkey_add a dhkey_min = a.
Proof.
  intros [L F]. unfold dhkey_min. rewrite <- L. clear L.
  induction F; cbn; auto. f_equal; auto. rewrite Z.add_0_r. apply u32_id. exact H.
Qed.

(** distance *)
Lemma half_wf : wf_key dhkey_half.
Proof. split; auto. repeat constructor; cbn; lia. Qed.
Lemma max_wf : wf_key dhkey_max.
Proof. split; auto. repeat constructor; cbn; lia. Qed.
Lemma min_wf : wf_key dhkey_min.
Proof. split; auto. repeat constructor; cbn; lia. Qed.

Lemma cmp_antisym a b : wf_key a -> wf_key b -> np_dhkey_cmp a b = - np_dhkey_cmp b a.
Proof.
  intros. rewrite !cmp_sgn by auto. rewrite <- Z.sgn_opp. f_equal; lia.
Qed.

Lemma cmp_zero a b : wf_key a -> wf_key b -> (np_dhkey_cmp a b = 0 <-> a = b).
Proof.
  intros. rewrite cmp_sgn by auto. rewrite Z.sgn_null_iff. split; intros.
  - apply wf_kval_inj; auto; lia.
  - subst; lia.
Qed.

Lemma distance_sym a b : wf_key a -> wf_key b -> np_dhkey_distance a b = np_dhkey_distance b a.
Proof.
  intros Ha Hb. unfold np_dhkey_distance.
  assert (E : (if np_dhkey_cmp a b >? 0 then np_dhkey_sub a b else np_dhkey_sub b a)
            = (if np_dhkey_cmp b a >? 0 then np_dhkey_sub b a else np_dhkey_sub a b)).
  { destruct (Z.eq_dec (np_dhkey_cmp a b) 0) as [E|E].
    - apply cmp_zero in E; auto. subst. reflexivity.
    - pose proof (cmp_antisym a b Ha Hb).
      destruct (np_dhkey_cmp a b >? 0) eqn:E1, (np_dhkey_cmp b a >? 0) eqn:E2; auto; lia. }
  rewrite E. reflexivity.
Qed.

Lemma distance_wf a b : wf_key a -> wf_key b -> wf_key (np_dhkey_distance a b).
Proof.
  intros. unfold np_dhkey_distance.
  destruct (np_dhkey_cmp a b >? 0); destruct (np_dhkey_cmp dhkey_half _ <? 0);
    repeat apply sub_wf; auto using max_wf.
Qed.

Lemma sub_self a : np_dhkey_sub a a = repeat 0 (length a).
Proof. induction a; cbn; auto. f_equal; auto. rewrite Z.sub_diag. reflexivity. Qed.

Lemma distance_self a : wf_key a -> np_dhkey_distance a a = dhkey_min.
Proof.
  intros H. unfold np_dhkey_distance.
  assert (E : np_dhkey_cmp a a = 0) by (apply cmp_zero; auto). rewrite E. cbn [Z.gtb Z.compare].
  rewrite sub_self. destruct H as [-> _]. reflexivity.
Qed.

(* elementary facts about complementing with max *)
Lemma sub_max_hd x k :
  is_word x -> np_dhkey_sub (4294967295 :: repeat 4294967295 (length k)) (x :: k)
               = (4294967295 - x) :: np_dhkey_sub (repeat 4294967295 (length k)) k.
Proof. intros H. cbn. f_equal. apply u32_id. unfold is_word in H; lia. Qed.

Lemma wf_destruct k : wf_key k -> exists x k', k = x :: k' /\ length k' = 7%nat /\ is_word x /\ Forall is_word k'.
Proof.
  intros [L F]. destruct k as [|x k]; [discriminate|]. inversion F; subst.
  exists x, k. cbn in L. auto.
Qed.

Lemma kval_cons_lt x y a b :
  length a = length b -> Forall is_word a -> Forall is_word b ->
  x < y -> kval (x :: a) < kval (y :: b).
Proof.
  intros L Ha Hb H. cbn [kval length]. rewrite L.
  pose proof (kval_range a Ha). pose proof (kval_range b Hb). rewrite L in H0.
  pose proof (pow_pos_B (length b)). nia.
Qed.

Lemma distance_bounded a b :
  wf_key a -> wf_key b -> np_dhkey_cmp (np_dhkey_distance a b) dhkey_half <= 0.
Proof.
  intros Ha Hb. unfold np_dhkey_distance.
  set (d := if np_dhkey_cmp a b >? 0 then np_dhkey_sub a b else np_dhkey_sub b a).
  assert (Hd : wf_key d) by (unfold d; destruct (_ >? 0); apply sub_wf; auto).
  clearbody d. clear a b Ha Hb.
  destruct (np_dhkey_cmp dhkey_half d <? 0) eqn:E.
  - rewrite cmp_sgn in * by auto using sub_wf, max_wf, half_wf.
    destruct (wf_destruct d Hd) as (x & k & -> & L & Hx & Hk).
    assert (2147483648 <= x).
    { destruct (Z_lt_le_dec x 2147483648); auto.
      assert (kval (x :: k) < kval dhkey_half).
      { apply kval_cons_lt; auto. repeat constructor; unfold is_word; lia. }
      assert (kval dhkey_half - kval (x :: k) > 0) by lia.
      rewrite Z.sgn_pos in E by lia. discriminate. }
    assert (kval (np_dhkey_sub dhkey_max (x :: k)) < kval dhkey_half).
    { unfold dhkey_max. change (repeat 4294967295 8) with (4294967295 :: repeat 4294967295 7).
      rewrite <- L, sub_max_hd by auto. apply kval_cons_lt.
      - rewrite L; cbn [length]. unfold np_dhkey_sub. rewrite map2_length; cbn; auto.
      - apply map2_word; auto. intros; apply u32_word. rewrite L; repeat constructor; unfold is_word; lia.
      - repeat constructor; unfold is_word; lia.
      - lia. }
    rewrite Z.sgn_neg by lia. lia.
  - rewrite cmp_antisym by auto using half_wf. lia.
Qed.

(** Exact characterisation of the pairs with distance zero. *)
Lemma sub_eq_const c a b :
  length a = length b -> Forall is_word a -> Forall is_word b -> is_word c ->
  (np_dhkey_sub a b = repeat c (length a) <-> a = np_dhkey_add b (repeat c (length a))).
Proof.
  intros L Ha; revert b L; induction Ha as [|x a Hx Ha IH]; intros [|y b] L Hb Hc;
    try discriminate; cbn; [tauto|].
  inversion Hb; subst. injection L as L. specialize (IH b L H2 Hc).
  split; intros H; injection H; intros E1 E2; f_equal.
  - unfold is_word, u32 in *; lia.
  - apply IH; auto.
  - unfold is_word, u32 in *; lia.
  - apply IH; auto.
Qed.

Lemma repeat0_sub_max d :
  wf_key d -> np_dhkey_sub dhkey_max d = dhkey_min -> d = dhkey_max.
Proof.
  intros [L F]. unfold dhkey_max, dhkey_min. rewrite <- L. clear L.
  induction F; cbn; auto. intros E; injection E; intros. f_equal; auto.
  unfold is_word, u32 in *; lia.
Qed.

Lemma distance_zero_iff_gt a b :
  wf_key a -> wf_key b -> kval a > kval b ->
  (np_dhkey_distance a b = dhkey_min <-> np_dhkey_sub a b = dhkey_max).
Proof.
  intros Ha Hb Hgt. unfold np_dhkey_distance.
  assert (Ec : np_dhkey_cmp a b = 1) by (rewrite cmp_sgn by auto; apply Z.sgn_pos; lia).
  rewrite Ec. cbn [Z.gtb Z.compare].
  assert (Hd : wf_key (np_dhkey_sub a b)) by (apply sub_wf; auto).
  split.
  - destruct (np_dhkey_cmp dhkey_half (np_dhkey_sub a b) <? 0) eqn:E; intros H.
    + apply repeat0_sub_max; auto.
    + exfalso. destruct Ha as [La Fa], Hb as [Lb Fb].
      assert (a = np_dhkey_add b (repeat 0 (length a))).
      { apply sub_eq_const; auto; try congruence. unfold is_word; lia. rewrite La; exact H. }
      rewrite La in H0. change (repeat 0 8) with dhkey_min in H0. rewrite add_zero in H0 by (split; auto). subst; lia.
  - intros ->. reflexivity.
Qed.

(** between *)
Lemma sgn_eqb0 x : (Z.sgn x =? 0) = (x =? 0).
Proof. destruct x; reflexivity. Qed.
Lemma sgn_ltb0 x : (Z.sgn x <? 0) = (x <? 0).
Proof. destruct x; reflexivity. Qed.
Lemma sgn_gtb0 x : (Z.sgn x >? 0) = (x >? 0).
Proof. destruct x; reflexivity. Qed.

Lemma between_spec t l r incl :
  wf_key t -> wf_key l -> wf_key r ->
  np_dhkey_between t l r incl = true <->
  (((t = l \/ t = r) /\ incl = true) \/ (t <> l /\ t <> r /\ inside_arc (kval l) (kval r) (kval t))).
Proof.
  intros Ht Hl Hr. unfold np_dhkey_between. rewrite !cmp_sgn by auto.
  rewrite !sgn_eqb0, !sgn_ltb0.
  pose proof (wf_kval_range t Ht). pose proof (wf_kval_range l Hl). pose proof (wf_kval_range r Hr).
  assert (Etl : t = l <-> kval t = kval l) by (split; [congruence|apply wf_kval_inj; auto]).
  assert (Etr : t = r <-> kval t = kval r) by (split; [congruence|apply wf_kval_inj; auto]).
  rewrite Etl, Etr. clear Etl Etr. unfold inside_arc.
  assert (Hm : 0 < ring) by reflexivity.
  set (T := kval t) in *; set (L := kval l) in *; set (R := kval r) in *. set (m := ring) in *.
  clearbody T L R m. clear Ht Hl Hr t l r.
  assert (E : forall a b, 0 <= a < m -> 0 <= b < m ->
            (a - b) mod m = if b <=? a then a - b else a - b + m).
  { intros a b Ha Hb. destruct (b <=? a) eqn:E.
    - apply Z.mod_small; lia.
    - symmetry; apply Z.mod_unique with (-1); lia. }
  rewrite !E by auto. clear E.
  destruct (L - T =? 0) eqn:E1; destruct (T - R =? 0) eqn:E2;
    destruct (L - R <? 0) eqn:E3; destruct (L =? R) eqn:E4;
    destruct (L <=? T) eqn:E5; destruct (L <=? R) eqn:E6;
    destruct (L - T <? 0) eqn:E7; destruct (T - R <? 0) eqn:E8; destruct incl; cbn [orb andb]; lia.
Qed.

(** bytes *)
Definition is_byte (b : Z) : Prop := 0 <= b < 256.

Lemma word_bytes_byte w : Forall is_byte (word_bytes w).
Proof. unfold word_bytes. repeat constructor; unfold is_byte; apply Z.mod_pos_bound; lia. Qed.

Lemma key_bytes_byte k : Forall is_byte (key_bytes k).
Proof. induction k; cbn -[word_bytes]; auto. apply Forall_app; split; auto using word_bytes_byte. Qed.

Lemma key_bytes_length k : length (key_bytes k) = (4 * length k)%nat.
Proof. induction k as [|w k IHk]; [reflexivity|]. change (key_bytes (w :: k)) with (word_bytes w ++ key_bytes k). rewrite app_length, IHk. cbn. lia. Qed.

Lemma bytes_word_bytes w : is_word w ->
  bytes_word (w mod 256) ((w / 256) mod 256) ((w / 65536) mod 256) ((w / 16777216) mod 256) = w.
Proof. unfold is_word, bytes_word. lia. Qed.

Lemma bytes_key_bytes k : Forall is_word k -> bytes_key (key_bytes k) = k.
Proof.
  induction 1; auto. change (key_bytes (x :: l)) with (word_bytes x ++ key_bytes l).
  cbn -[bytes_word]. rewrite bytes_word_bytes by auto. f_equal. exact IHForall.
Qed.

Lemma hexval_hexdigit n : 0 <= n < 16 -> hexval (hexdigit n) = Some n.
Proof.
  intros H. unfold hexdigit, hexval.
  destruct (n <? 10) eqn:E;
    repeat match goal with |- context [if ?c then _ else _] => destruct c eqn:? end;
    try (f_equal; lia); lia.
Qed.

Lemma hexdigit_lower n : 0 <= n < 16 -> is_lower_hex (hexdigit n).
Proof. intros. unfold is_lower_hex, hexdigit. destruct (n <? 10) eqn:E; lia. Qed.

Lemma bin2hex_length l : length (bin2hex l) = (2 * length l)%nat.
Proof. unfold bin2hex. induction l; [reflexivity|]. cbn [flat_map app length]. rewrite IHl. lia. Qed.

Lemma bin2hex_lower l : Forall is_byte l -> Forall is_lower_hex (bin2hex l).
Proof.
  induction 1; cbn -[hexdigit]; auto.
  unfold is_byte in H. apply Forall_cons; [apply hexdigit_lower; lia|].
  apply Forall_cons; [apply hexdigit_lower; lia|exact IHForall].
Qed.

Lemma hex2bin_bin2hex l : Forall is_byte l -> hex2bin (bin2hex l) = Some l.
Proof.
  induction 1; auto. unfold is_byte in H. cbn -[hexdigit hexval].
  rewrite !hexval_hexdigit by lia. fold (bin2hex l). rewrite IHForall. do 2 f_equal. lia.
Qed.

Lemma bin2hex_xdigit l : Forall is_byte l ->
  forallb (fun c => match hexval c with Some _ => true | None => false end) (bin2hex l) = true.
Proof.
  induction 1; auto. unfold is_byte in H. cbn -[hexdigit hexval].
  rewrite !hexval_hexdigit by lia. exact IHForall.
Qed.

Lemma str_length k : wf_key k -> length (np_dhkey_str k) = 64%nat.
Proof. intros [L _]. unfold np_dhkey_str. rewrite bin2hex_length, key_bytes_length, L. reflexivity. Qed.

Lemma str_roundtrip k : wf_key k -> np_dhkey_create_from_hash (np_dhkey_str k) = k.
Proof.
  intros H. unfold np_dhkey_create_from_hash.
  rewrite firstn_all2 by (rewrite str_length; auto).
  rewrite str_length by auto. cbn [Nat.eqb negb].
  unfold np_dhkey_str. rewrite bin2hex_xdigit by apply key_bytes_byte. cbn [negb].
  rewrite hex2bin_bin2hex by apply key_bytes_byte. apply bytes_key_bytes. apply H.
Qed.

Lemma bytes_key_wf l : length l = 32%nat -> Forall is_byte l -> wf_key (bytes_key l).
Proof.
  intros L F. do 32 (destruct l as [|? l]; [discriminate|]). destruct l; [|discriminate].
  repeat match goal with H : Forall is_byte (_ :: _) |- _ => inversion H; subst; clear H end.
  split; auto. cbn -[bytes_word].
  unfold is_byte in *. repeat constructor; unfold is_word, bytes_word; lia.
Qed.

Lemma hex2bin_facts l : forall r, hex2bin l = Some r -> Forall is_byte r /\ length l = (2 * length r)%nat.
Proof.
  assert (G : forall n (l : list Z), (length l <= n)%nat -> forall r, hex2bin l = Some r -> Forall is_byte r /\ length l = (2 * length r)%nat).
  { induction n; intros l0 Hl r E.
    - destruct l0; [|cbn in Hl; lia]. cbn in E. injection E as <-. auto.
    - destruct l0 as [|a [|b l0]]; cbn -[hexval] in E; try discriminate.
      + injection E as <-; auto.
      + destruct (hexval a) eqn:Ea; [|discriminate]. destruct (hexval b) eqn:Eb; [|discriminate].
        destruct (hex2bin l0) eqn:Er; [|discriminate]. injection E as <-.
        destruct (IHn l0) with (r := l1) as [F L]; auto. cbn in Hl; lia.
        split; [|cbn; lia]. constructor; auto.
        unfold hexval in Ea, Eb. unfold is_byte.
        repeat match goal with H : (if ?c then _ else _) = _ |- _ => destruct c eqn:?; try discriminate H end;
        injection Ea; injection Eb; intros; lia. }
  intros; eapply G; eauto.
Qed.

Lemma create_wf s : wf_key (np_dhkey_create_from_hash s).
Proof.
  unfold np_dhkey_create_from_hash.
  destruct (Nat.eqb _ _) eqn:E1; cbn [negb]; [|apply min_wf].
  destruct (forallb _ _); cbn [negb]; [|apply min_wf].
  destruct (hex2bin (firstn 64 s)) eqn:E; [|apply min_wf].
  apply hex2bin_facts in E. destruct E as [F L]. apply Nat.eqb_eq in E1.
  apply bytes_key_wf; auto. lia.
Qed.

(** index *)
Lemma nibbles_hi x y : is_byte x -> is_byte y ->
  (Z.land x 240 =? Z.land y 240) = (hexdigit (x / 16) =? hexdigit (y / 16)).
Proof.
  intros Hx Hy.
  assert (E : forall z, is_byte z -> Z.land z 240 = 16 * (z / 16)).
  { intros z Hz. apply Z.eqb_eq.
    apply (byte_cases (fun z => Z.land z 240 =? 16 * (z / 16))); [vm_compute; reflexivity|auto]. }
  rewrite !E by auto. unfold hexdigit, is_byte in *.
  destruct (x / 16 <? 10) eqn:?, (y / 16 <? 10) eqn:?; lia.
Qed.

Lemma nibbles_lo x y : is_byte x -> is_byte y ->
  (Z.land x 15 =? Z.land y 15) = (hexdigit (x mod 16) =? hexdigit (y mod 16)).
Proof.
  intros Hx Hy.
  assert (E : forall z, is_byte z -> Z.land z 15 = z mod 16).
  { intros z Hz. apply Z.eqb_eq.
    apply (byte_cases (fun z => Z.land z 15 =? z mod 16)); [vm_compute; reflexivity|auto]. }
  rewrite !E by auto. unfold hexdigit, is_byte in *.
  destruct (x mod 16 <? 10) eqn:?, (y mod 16 <? 10) eqn:?; lia.
Qed.

Lemma index_loop_spec a b n :
  Forall is_byte a -> Forall is_byte b -> length a = length b ->
  0 <= n -> n + 2 * Z.of_nat (length a) < 256 ->
  np_dhkey_index_loop a b n = n + Z.of_nat (common_prefix (bin2hex a) (bin2hex b)).
Proof.
  intros Ha; revert b n; induction Ha as [|x a Hx Ha IH]; intros [|y b] n Hb L Hn Hr;
    try discriminate; cbn -[hexdigit]; [lia|].
  inversion Hb; subst. injection L as L. cbn [length] in Hr.
  rewrite nibbles_hi, nibbles_lo by auto.
  destruct (hexdigit (x / 16) =? hexdigit (y / 16)); cbn [negb]; [|lia].
  destruct (hexdigit (x mod 16) =? hexdigit (y mod 16)); cbn [negb]; rewrite (u8_id (n + 1)) by lia; [|lia].
  rewrite (u8_id (n + 1 + 1)) by lia.
  rewrite IH by (auto; lia). fold (bin2hex a) (bin2hex b). lia.
Qed.

Lemma index_spec a b : wf_key a -> wf_key b ->
  np_dhkey_index a b = Z.of_nat (common_prefix (np_dhkey_str a) (np_dhkey_str b)).
Proof.
  intros [La Fa] [Lb Fb]. unfold np_dhkey_index.
  rewrite index_loop_spec; auto using key_bytes_byte; rewrite ?key_bytes_length, ?La, ?Lb; lia.
Qed.

Lemma common_prefix_le a b : (common_prefix a b <= length a)%nat.
Proof. revert b; induction a; intros [|y b]; cbn; try lia. destruct (a =? y); [|lia]. specialize (IHa b). lia. Qed.

Lemma common_prefix_full a b : length a = length b -> (common_prefix a b = length a <-> a = b).
Proof.
  revert b; induction a as [|x a IH]; intros [|y b] L; try discriminate; cbn; [tauto|].
  injection L as L. specialize (IH b L). destruct (x =? y) eqn:E.
  - split; intros H; [|f_equal]. f_equal; [lia|apply IH; congruence]. injection H; intros; apply IH; auto.
  - split; [discriminate|]. intros H; injection H; lia.
Qed.

Lemma common_prefix_sym a b : common_prefix a b = common_prefix b a.
Proof.
  revert b; induction a as [|x a IH]; intros [|y b]; cbn; auto.
  rewrite Z.eqb_sym. rewrite IH. reflexivity.
Qed.

Lemma common_prefix_agree a b i d : (i < common_prefix a b)%nat -> nth i a d = nth i b d.
Proof.
  revert b i; induction a as [|x a IH]; intros [|y b] i; cbn; try lia.
  destruct (x =? y) eqn:E; [|lia]. destruct i; intros; [lia|]. apply IH; lia.
Qed.

Lemma common_prefix_differ a b d :
  length a = length b -> (common_prefix a b < length a)%nat ->
  nth (common_prefix a b) a d <> nth (common_prefix a b) b d.
Proof.
  revert b; induction a as [|x a IH]; intros [|y b] L; try discriminate; cbn; [lia|].
  destruct (x =? y) eqn:E; intros; [|lia]. apply IH; [cbn in L|]; lia.
Qed.

Lemma str_inj a b : wf_key a -> wf_key b -> np_dhkey_str a = np_dhkey_str b -> a = b.
Proof. intros Ha Hb E. rewrite <- (str_roundtrip a), <- (str_roundtrip b), E; auto. Qed.

Lemma flat_map_nth2 (f : Z -> list Z) l i d :
  (forall x, length (f x) = 2%nat) -> (i < length l)%nat ->
  nth (2 * i) (flat_map f l) d = nth 0 (f (nth i l 0)) d /\
  nth (2 * i + 1) (flat_map f l) d = nth 1 (f (nth i l 0)) d.
Proof.
  intros Hf; revert i; induction l as [|x l IH]; intros i Hi; [cbn in Hi; lia|].
  cbn [flat_map]. destruct i.
  - cbn [nth Nat.mul Nat.add]. rewrite !app_nth1 by (rewrite Hf; lia). auto.
  - rewrite !app_nth2 by (rewrite Hf; lia). rewrite Hf.
    replace (2 * S i - 2)%nat with (2 * i)%nat by lia.
    replace (2 * S i + 1 - 2)%nat with (2 * i + 1)%nat by lia.
    cbn in Hi. destruct (IH i ltac:(lia)) as [-> ->]. auto.
Qed.

Lemma flat_map_nth4 (f : Z -> list Z) l i j d :
  (forall x, length (f x) = 4%nat) -> (i < length l)%nat -> (j < 4)%nat ->
  nth (4 * i + j) (flat_map f l) d = nth j (f (nth i l 0)) d.
Proof.
  intros Hf; revert i; induction l as [|x l IH]; intros i Hi Hj; [cbn in Hi; lia|].
  cbn [flat_map]. destruct i.
  - cbn [nth Nat.mul Nat.add]. rewrite app_nth1 by (rewrite Hf; lia). auto.
  - rewrite app_nth2 by (rewrite Hf; lia). rewrite Hf.
    replace (4 * S i + j - 4)%nat with (4 * i + j)%nat by lia.
    cbn in Hi. rewrite IH by lia. auto.
Qed.

Lemma hexalpha_spec k i : wf_key k -> 0 <= i < 64 ->
  exists n, np_dhkey_hexalpha_at k i = Some n /\ 0 <= n < 16 /\
            nth (Z.to_nat i) (np_dhkey_str k) 0 = hexdigit n.
Proof.
  intros [L F] Hi. unfold np_dhkey_hexalpha_at.
  replace (i <? 0) with false by lia.
  destruct (nth_error k (Z.to_nat (i / 8))) as [w|] eqn:Ew.
  2:{ apply nth_error_None in Ew. lia. }
  assert (Hw : nth (Z.to_nat (i / 8)) k 0 = w) by (apply nth_error_nth; auto).
  set (byte := nth (Z.to_nat (i mod 8 / 2)) (word_bytes w) 0).
  assert (Hb : is_byte byte).
  { assert (F4 := word_bytes_byte w). rewrite Forall_forall in F4. apply F4. apply nth_In. cbn; lia. }
  assert (Ei : nth (Z.to_nat (i / 2)) (key_bytes k) 0 = byte).
  { unfold key_bytes.
    replace (Z.to_nat (i / 2)) with (4 * Z.to_nat (i / 8) + Z.to_nat (i mod 8 / 2))%nat by lia.
    rewrite flat_map_nth4; auto; try lia. rewrite Hw. reflexivity. }
  eexists. split; [reflexivity|].
  assert (E4 : Z.land (Z.shiftr byte 4) 15 = byte / 16).
  { apply Z.eqb_eq. apply (byte_cases (fun z => Z.land (Z.shiftr z 4) 15 =? z / 16)); [vm_compute; reflexivity|auto]. }
  assert (E5 : Z.land byte 15 = byte mod 16).
  { apply Z.eqb_eq. apply (byte_cases (fun z => Z.land z 15 =? z mod 16)); [vm_compute; reflexivity|auto]. }
  assert (Hlen : (Z.to_nat (i / 2) < length (key_bytes k))%nat) by (rewrite key_bytes_length, L; lia).
  destruct (flat_map_nth2 (fun b => [hexdigit (b / 16); hexdigit (b mod 16)]) (key_bytes k) (Z.to_nat (i/2)) 0 ltac:(auto) Hlen) as [N0 N1].
  rewrite Ei in N0, N1. cbn -[hexdigit] in N0, N1.
  unfold is_byte in Hb.
  destruct (i mod 8 mod 2 =? 0) eqn:E.
  - rewrite E4. split; [lia|]. unfold np_dhkey_str, bin2hex.
    replace (Z.to_nat i) with (2 * Z.to_nat (i / 2))%nat by lia. exact N0.
  - rewrite E5. split; [lia|]. unfold np_dhkey_str, bin2hex.
    replace (Z.to_nat i) with (2 * Z.to_nat (i / 2) + 1)%nat by lia. exact N1.
Qed.

(** hamming distance *)
Lemma bits_differing_lxor n a b : bits_differing n a b = bits_differing n (Z.lxor a b) 0.
Proof.
  induction n as [|n IH]; cbn [bits_differing]; auto. rewrite Z.lxor_spec, Z.bits_0, xorb_false_r, IH. reflexivity.
Qed.

Lemma bits_differing_range n a b : 0 <= bits_differing n a b <= Z.of_nat n.
Proof. induction n; cbn [bits_differing]; [lia|]. destruct (xorb _ _); lia. Qed.

Lemma bits_differing_shift n z :
  bits_differing (S n) z 0 = (if Z.odd z then 1 else 0) + bits_differing n (z / 2) 0.
Proof.
  induction n as [|n IH].
  - cbn [bits_differing Z.of_nat]. rewrite Z.bits_0, xorb_false_r, Z.bit0_odd. reflexivity.
  - cbn [bits_differing] in *. rewrite !Z.bits_0, !xorb_false_r in *.
    replace (Z.testbit (z / 2) (Z.of_nat n)) with (Z.testbit z (Z.of_nat (S n))); [lia|].
    change 2 with (2 ^ 1). rewrite Z.div_pow2_bits by lia. f_equal; lia.
Qed.

Lemma popcount_double z b : 0 <= z -> popcount (2 * z + (if b : bool then 1 else 0)) = (if b then 1 else 0) + popcount z.
Proof. intros H. destruct z; [destruct b; reflexivity| |lia]. destruct b; reflexivity. Qed.

Lemma popcount_spec n z : 0 <= z < 2 ^ Z.of_nat n -> popcount z = bits_differing n z 0.
Proof.
  revert z; induction n as [|n IH]; intros z H.
  - change (2 ^ Z.of_nat 0) with 1 in H. assert (z = 0) by lia. subst; reflexivity.
  - rewrite bits_differing_shift. rewrite Nat2Z.inj_succ, Z.pow_succ_r in H by lia.
    rewrite <- IH by lia.
    assert (E : z = 2 * (z / 2) + (if Z.odd z then 1 else 0)).
    { rewrite <- Z.div2_div. rewrite (Z.div2_odd z) at 1. destruct (Z.odd z); cbn; lia. }
    rewrite E at 1. apply popcount_double. lia.
Qed.

Lemma bits_differing_high n m w r v s :
  0 <= r < 2 ^ Z.of_nat n -> 0 <= s < 2 ^ Z.of_nat n ->
  bits_differing (m + n) (w * 2 ^ Z.of_nat n + r) (v * 2 ^ Z.of_nat n + s)
  = bits_differing m w v + bits_differing n r s.
Proof.
  intros Hr Hs.
  assert (Hhi : forall w r i, 0 <= r < 2 ^ Z.of_nat n ->
            Z.testbit (w * 2 ^ Z.of_nat n + r) (Z.of_nat (i + n)) = Z.testbit w (Z.of_nat i)).
  { intros w' r' i H. rewrite Nat2Z.inj_add.
    replace (Z.testbit w' (Z.of_nat i)) with (Z.testbit ((w' * 2 ^ Z.of_nat n + r') / 2 ^ Z.of_nat n) (Z.of_nat i)).
    - rewrite Z.div_pow2_bits by lia. reflexivity.
    - f_equal. rewrite Z.div_add_l by lia. rewrite Z.div_small by lia. lia. }
  assert (Hlo : forall w r i, 0 <= r < 2 ^ Z.of_nat n -> (i < n)%nat ->
            Z.testbit (w * 2 ^ Z.of_nat n + r) (Z.of_nat i) = Z.testbit r (Z.of_nat i)).
  { intros w' r' i H Hi. rewrite <- (Z.mod_pow2_bits_low _ (Z.of_nat n)) by lia.
    rewrite Z.add_comm, Z.mod_add by lia. rewrite Z.mod_small by lia. reflexivity. }
  induction m as [|m IH].
  - cbn [Nat.add bits_differing].
    assert (G : forall k, (k <= n)%nat -> bits_differing k (w * 2 ^ Z.of_nat n + r) (v * 2 ^ Z.of_nat n + s) = bits_differing k r s).
    { induction k as [|k IHk]; intros Hk; cbn [bits_differing]; auto.
      rewrite !Hlo by (auto; lia). rewrite IHk by lia. reflexivity. }
    rewrite G by lia. lia.
  - cbn [Nat.add bits_differing]. rewrite IH, !Hhi by auto. lia.
Qed.

Lemma pow32 n : 4294967296 ^ Z.of_nat n = 2 ^ Z.of_nat (32 * n).
Proof. change 4294967296 with (2 ^ 32). rewrite <- Z.pow_mul_r by lia. f_equal. lia. Qed.

Definition sumz (l : list Z) : Z := fold_right Z.add 0 l.

Lemma hamming_words a b :
  length a = length b -> Forall is_word a -> Forall is_word b ->
  sumz (map popcount (map2 Z.lxor a b)) = bits_differing (32 * length a) (kval a) (kval b).
Proof.
  intros L Ha; revert b L; induction Ha as [|x a Hx Ha IH]; intros [|y b] L Hb; try discriminate; auto.
  inversion Hb; subst. injection L as L. cbn [map2 map sumz fold_right length kval].
  fold (sumz (map popcount (map2 Z.lxor a b))). rewrite IH by auto.
  replace (32 * S (length a))%nat with (32 + 32 * length a)%nat by lia.
  rewrite <- L, pow32.
  pose proof (kval_range a Ha) as Ra. pose proof (kval_range b H2) as Rb.
  rewrite <- L in Rb. rewrite pow32 in Ra, Rb.
  rewrite bits_differing_high by auto.
  f_equal. rewrite bits_differing_lxor. apply popcount_spec.
  unfold is_word in *. change (2 ^ Z.of_nat 32) with (2 ^ 32).
  assert (0 <= Z.lxor x y) by (apply Z.lxor_nonneg; lia).
  split; auto. destruct (Z.eq_dec (Z.lxor x y) 0) as [->|N]; [reflexivity|].
  apply Z.log2_lt_pow2; [lia|].
  pose proof (Z.log2_lxor x y ltac:(lia) ltac:(lia)).
  assert (forall z, 0 <= z < 4294967296 -> Z.log2 z < 32).
  { intros z Hz. destruct (Z.eq_dec z 0) as [->|]; [reflexivity|]. apply Z.log2_lt_pow2; lia. }
  pose proof (H3 x Hx). pose proof (H3 y H1). lia.
Qed.

Lemma hamming_fold l acc : Forall (fun v => 0 <= popcount v) l -> 0 <= acc < 256 ->
  fold_left (fun diff v => u8 (diff + popcount v)) l acc = u8 (acc + sumz (map popcount l)).
Proof.
  intros F; revert acc; induction F; intros acc Ha; cbn [fold_left map sumz fold_right].
  - rewrite Z.add_0_r, u8_id; auto.
  - rewrite IHF by apply u8_range. unfold u8. rewrite Zplus_mod_idemp_l. f_equal. fold (sumz (map popcount l)). lia.
Qed.

Lemma popcount_nonneg v : 0 <= popcount v.
Proof. destruct v; cbn; try lia. induction p; cbn; lia. Qed.

Lemma hamming_spec a b : wf_key a -> wf_key b ->
  np_dhkey_hamming_distance a b = bits_differing 256 (kval a) (kval b) mod 256.
Proof.
  intros [La Fa] [Lb Fb]. unfold np_dhkey_hamming_distance.
  rewrite hamming_fold by (try lia; apply Forall_forall; intros; apply popcount_nonneg).
  rewrite hamming_words by (auto; congruence). rewrite La. reflexivity.
Qed.

(** rotation *)
Lemma lor_add q b y : 0 <= b -> 0 <= y < 2 ^ b -> Z.lor (q * 2 ^ b) y = q * 2 ^ b + y.
Proof.
  intros Hb Hy. rewrite Z.add_nocarry_lxor.
  - rewrite Z.lxor_lor; auto.
    apply Z.bits_inj'. intros n Hn. rewrite Z.land_spec, Z.bits_0.
    destruct (Z_lt_le_dec n b).
    + rewrite Z.mul_pow2_bits_low by lia. reflexivity.
    + rewrite <- (Z.mod_small y (2 ^ b)) by lia. rewrite Z.mod_pow2_bits_high by lia. apply andb_false_r.
  - apply Z.bits_inj'. intros n Hn. rewrite Z.land_spec, Z.bits_0.
    destruct (Z_lt_le_dec n b).
    + rewrite Z.mul_pow2_bits_low by lia. reflexivity.
    + rewrite <- (Z.mod_small y (2 ^ b)) by lia. rewrite Z.mod_pow2_bits_high by lia. apply andb_false_r.
Qed.

Lemma bits_cases (P : Z -> bool) :
  forallb P (map Z.of_nat (seq 1 31)) = true -> forall x, 1 <= x <= 31 -> P x = true.
Proof.
  intros H x Hx. rewrite forallb_forall in H. apply H.
  apply in_map_iff. exists (Z.to_nat x). split; [lia|]. apply in_seq. lia.
Qed.

Lemma rot_word_spec bits cur next :
  1 <= bits <= 31 -> is_word cur -> is_word next ->
  rot_word bits cur next = (cur * 2 ^ bits) mod 4294967296 + next / 2 ^ (32 - bits).
Proof.
  intros Hb Hc Hn. unfold rot_word.
  rewrite Z.shiftr_land.
  assert (E : Z.shiftr (u32 (Z.shiftl 4294967295 (32 - bits))) (32 - bits) = Z.ones bits).
  { apply Z.eqb_eq. apply (bits_cases (fun bits => Z.shiftr (u32 (Z.shiftl 4294967295 (32 - bits))) (32 - bits) =? Z.ones bits)); [vm_compute; reflexivity|auto]. }
  rewrite E. rewrite Z.land_ones by lia. rewrite Z.shiftr_div_pow2 by lia.
  rewrite Z.shiftl_mul_pow2 by lia. unfold u32.
  assert (EP : 4294967296 = 2 ^ (32 - bits) * 2 ^ bits) by (rewrite <- Z.pow_add_r by lia; replace (32 - bits + bits) with 32 by lia; reflexivity).
  assert (P1 : 0 < 2 ^ bits) by (apply Z.pow_pos_nonneg; lia).
  assert (P2 : 0 < 2 ^ (32 - bits)) by (apply Z.pow_pos_nonneg; lia).
  assert (Hnq : 0 <= next / 2 ^ (32 - bits) < 2 ^ bits).
  { unfold is_word in Hn. split; [apply Z.div_pos; lia|]. apply Z.div_lt_upper_bound; lia. }
  rewrite (Z.mod_small (next / _)) by auto.
  rewrite EP. rewrite Z.mul_mod_distr_r by lia.
  apply lor_add; lia.
Qed.

Lemma rot_word_word bits cur next :
  1 <= bits <= 31 -> is_word cur -> is_word next -> is_word (rot_word bits cur next).
Proof.
  intros Hb Hc Hn. rewrite rot_word_spec by auto.
  assert (EP : 4294967296 = 2 ^ (32 - bits) * 2 ^ bits) by (rewrite <- Z.pow_add_r by lia; replace (32 - bits + bits) with 32 by lia; reflexivity).
  assert (P1 : 0 < 2 ^ bits) by (apply Z.pow_pos_nonneg; lia).
  assert (P2 : 0 < 2 ^ (32 - bits)) by (apply Z.pow_pos_nonneg; lia).
  unfold is_word in *. rewrite EP in *. rewrite Z.mul_mod_distr_r by lia.
  pose proof (Z.mod_pos_bound cur (2 ^ (32 - bits)) P2).
  assert (0 <= next / 2 ^ (32 - bits) < 2 ^ bits).
  { split; [apply Z.div_pos; lia|]. apply Z.div_lt_upper_bound; lia. }
  nia.
Qed.

Lemma rot_words_wf bits f k :
  1 <= bits <= 31 -> is_word f -> Forall is_word k ->
  length (rot_words bits f k) = length k /\ Forall is_word (rot_words bits f k).
Proof.
  intros Hb Hf F. induction F as [|w k Hw F IH]; cbn [rot_words]; auto.
  destruct F as [|w' k Hw' F].
  - split; auto. constructor; auto. apply rot_word_word; auto.
  - destruct IH as [L G]. split; [cbn [length] in *; lia|]. constructor; auto. apply rot_word_word; auto.
Qed.

Lemma kval_top_div bits w k :
  1 <= bits <= 31 -> is_word w -> Forall is_word k ->
  (kval (w :: k) * 2 ^ bits) / 4294967296 ^ Z.of_nat (S (length k)) = w / 2 ^ (32 - bits).
Proof.
  intros Hb Hw F. cbn [kval]. rewrite pow_S_B.
  pose proof (kval_range k F) as R. pose proof (pow_pos_B (length k)) as PB.
  set (M := 4294967296 ^ Z.of_nat (length k)) in *. set (r := kval k) in *.
  assert (EP : 4294967296 = 2 ^ (32 - bits) * 2 ^ bits) by (rewrite <- Z.pow_add_r by lia; replace (32 - bits + bits) with 32 by lia; reflexivity).
  assert (P1 : 0 < 2 ^ bits) by (apply Z.pow_pos_nonneg; lia).
  assert (P2 : 0 < 2 ^ (32 - bits)) by (apply Z.pow_pos_nonneg; lia).
  set (p := 2 ^ bits) in *. set (q := 2 ^ (32 - bits)) in *. clearbody p q M r.
  rewrite EP. unfold is_word in Hw.
  symmetry. apply Z.div_unique with (r := (w mod q) * p * M + r * p).
  - left. pose proof (Z.mod_pos_bound w q P2).
    split; [nia|].
    assert ((w mod q) * p * M + r * p < (w mod q + 1) * p * M) by nia.
    assert ((w mod q + 1) * p * M <= q * p * M) by nia. lia.
  - pose proof (Z.div_mod w q ltac:(lia)). rewrite H at 1. ring.
Qed.

Lemma rot_words_kval bits f k :
  1 <= bits <= 31 -> is_word f -> Forall is_word k -> k <> [] ->
  kval (rot_words bits f k)
  = (kval k * 2 ^ bits) mod 4294967296 ^ Z.of_nat (length k) + f / 2 ^ (32 - bits).
Proof.
  intros Hb Hf F. induction F as [|w k Hw F IH]; intros Hn; [congruence|].
  destruct F as [|w' k Hw' F].
  - cbn [rot_words kval length]. rewrite rot_word_spec by auto.
    change (4294967296 ^ Z.of_nat 0) with 1. change (4294967296 ^ Z.of_nat 1) with 4294967296.
    rewrite !Z.mul_1_r, !Z.add_0_r. reflexivity.
  - change (rot_words bits f (w :: w' :: k)) with (rot_word bits w w' :: rot_words bits f (w' :: k)).
    assert (F' : Forall is_word (w' :: k)) by auto.
    destruct (rot_words_wf bits f (w' :: k) Hb Hf F') as [L _].
    cbn [kval]. rewrite L. fold (kval (w' :: k)). rewrite IH by congruence. clear IH.
    rewrite rot_word_spec by auto.
    rewrite <- (kval_top_div bits w' k) by auto.
    change (S (length k)) with (length (w' :: k)).
    change (w' * 4294967296 ^ Z.of_nat (length k) + kval k) with (kval (w' :: k)).
    change (length (w :: w' :: k)) with (S (length (w' :: k))).
    rewrite pow_S_B. pose proof (pow_pos_B (length (w' :: k))) as PB.
    set (M := 4294967296 ^ Z.of_nat (length (w' :: k))) in *. set (V := kval (w' :: k)) in *.
    assert (EV : (w * M + V) * 2 ^ bits = (w * 2 ^ bits + (V * 2 ^ bits) / M) * M + (V * 2 ^ bits) mod M).
    { pose proof (Z.div_mod (V * 2 ^ bits) M ltac:(lia)). nia. }
    rewrite EV.
    assert (EM : ((w * 2 ^ bits + V * 2 ^ bits / M) * M + (V * 2 ^ bits) mod M) mod (4294967296 * M)
                 = ((w * 2 ^ bits) mod 4294967296 + V * 2 ^ bits / M) * M + (V * 2 ^ bits) mod M).
    { symmetry. apply Z.mod_unique with (q := (w * 2 ^ bits) / 4294967296).
      - left. pose proof (Z.mod_pos_bound (V * 2 ^ bits) M ltac:(lia)).
        assert (Ew : is_word (rot_word bits w w')) by (apply rot_word_word; auto).
        rewrite rot_word_spec in Ew by auto. rewrite <- (kval_top_div bits w' k) in Ew by auto.
        change (4294967296 ^ Z.of_nat (S (length k))) with M in Ew. change (kval (w' :: k)) with V in Ew.
        unfold is_word in Ew. nia.
      - pose proof (Z.div_mod (w * 2 ^ bits) 4294967296 ltac:(lia)). nia. }
    rewrite EM. lia.
Qed.

Lemma rotate_spec k bits : wf_key k -> 1 <= bits <= 31 ->
  exists k', np_dhkey_rotate_left k bits = Ok k' /\ wf_key k' /\ kval k' = rotl (kval k) bits.
Proof.
  intros Hk Hb. unfold np_dhkey_rotate_left.
  replace ((1 <=? bits) && (bits <=? 31)) with true by lia.
  destruct (wf_destruct k Hk) as (w & r & -> & L & Hw & Hr).
  eexists; split; [reflexivity|]. cbn [hd].
  destruct (rot_words_wf bits w (w :: r) Hb Hw) as [L' F']; auto.
  split; [split; auto; rewrite L'; cbn; lia|].
  rewrite rot_words_kval by (auto; congruence).
  rewrite <- (kval_top_div bits w r) by auto.
  unfold rotl. cbn [length]. rewrite L. reflexivity.
Qed.

(** midpoint *)
Lemma half_add_sub k : Forall is_word k ->
  np_dhkey_sub k (repeat 2147483648 (length k)) = np_dhkey_add k (repeat 2147483648 (length k)).
Proof.
  induction 1; auto. cbn [length repeat np_dhkey_sub np_dhkey_add map2]. f_equal; auto.
  unfold is_word, u32 in *. lia.
Qed.

Lemma midpoint_eq k : wf_key k -> np_dhkey_midpoint k = np_dhkey_add k dhkey_half.
Proof.
  intros [L F]. unfold np_dhkey_midpoint. destruct (_ <? 0); auto.
  unfold dhkey_half. rewrite <- L. apply half_add_sub; auto.
Qed.

Lemma midpoint_involutive k : wf_key k -> np_dhkey_midpoint (np_dhkey_midpoint k) = k.
Proof.
  intros H. rewrite !midpoint_eq; auto using add_wf, half_wf.
  rewrite <- add_assoc. change (np_dhkey_add dhkey_half dhkey_half) with dhkey_min. apply add_zero; auto.
  rewrite midpoint_eq; auto using add_wf, half_wf.
Qed.

Lemma hexval_lower c : hexval (to_lower c) = hexval c.
Proof.
  unfold to_lower. destruct ((65 <=? c) && (c <=? 90)) eqn:E; [|reflexivity]. unfold hexval.
  replace ((48 <=? c + 32) && (c + 32 <=? 57)) with false by lia.
  replace ((48 <=? c) && (c <=? 57)) with false by lia.
  replace ((97 <=? c) && (c <=? 102)) with false by lia.
  replace ((65 <=? c + 32) && (c + 32 <=? 70)) with false by lia.
  destruct (Z.leb_spec c 70).
  - replace ((97 <=? c + 32) && (c + 32 <=? 102)) with true by lia.
    replace ((65 <=? c) && true) with true by lia. f_equal; lia.
  - replace ((97 <=? c + 32) && (c + 32 <=? 102)) with false by lia.
    replace ((65 <=? c) && false) with false by lia. reflexivity.
Qed.

Lemma hex2bin_lower l : hex2bin (map to_lower l) = hex2bin l.
Proof.
  assert (G : forall n (l : list Z), (length l <= n)%nat -> hex2bin (map to_lower l) = hex2bin l).
  { induction n as [|n IH]; intros m Hm; [destruct m; [reflexivity|cbn in Hm; lia]|].
    destruct m as [|a [|b m]]; [reflexivity|reflexivity|]. cbn [map hex2bin].
    rewrite !hexval_lower, IH by (cbn in Hm; lia). reflexivity. }
  apply (G (length l)); auto.
Qed.

Lemma create_lower s : np_dhkey_create_from_hash (map to_lower s) = np_dhkey_create_from_hash s.
Proof.
  unfold np_dhkey_create_from_hash. rewrite firstn_map, map_length, hex2bin_lower.
  replace (forallb (fun c => match hexval c with Some _ => true | None => false end) (map to_lower (firstn 64 s)))
     with (forallb (fun c => match hexval c with Some _ => true | None => false end) (firstn 64 s)); [reflexivity|].
  induction (firstn 64 s) as [|c l IH]; [reflexivity|]. cbn [map forallb]. rewrite hexval_lower, IH. reflexivity.
Qed.

Lemma hexval_is_hex c : hexval c <> None <-> is_hex c.
Proof.
  unfold hexval, is_hex, is_lower_hex.
  destruct ((48 <=? c) && (c <=? 57)) eqn:E1; [split; [lia|discriminate]|].
  destruct ((97 <=? c) && (c <=? 102)) eqn:E2; [split; [lia|discriminate]|].
  destruct ((65 <=? c) && (c <=? 70)) eqn:E3; [split; [lia|discriminate]|]. split; [congruence|lia].
Qed.

Lemma hexdigit_hexval c : is_lower_hex c -> exists n, hexval c = Some n /\ 0 <= n < 16 /\ hexdigit n = c.
Proof.
  intros H. unfold hexval, is_lower_hex in *. unfold hexdigit.
  destruct ((48 <=? c) && (c <=? 57)) eqn:E1.
  - exists (c - 48). split; auto. split; [lia|]. destruct (Z.ltb_spec (c - 48) 10); lia.
  - destruct ((97 <=? c) && (c <=? 102)) eqn:E2; [|lia].
    exists (c - 87). split; auto. split; [lia|]. destruct (Z.ltb_spec (c - 87) 10); lia.
Qed.

Lemma bin2hex_hex2bin l : forall r, Forall is_lower_hex l -> hex2bin l = Some r -> bin2hex r = l.
Proof.
  assert (G : forall n (l : list Z), (length l <= n)%nat -> forall r, Forall is_lower_hex l -> hex2bin l = Some r -> bin2hex r = l).
  { induction n as [|n IH]; intros m Hm r F E; [destruct m; [injection E as <-; reflexivity|cbn in Hm; lia]|].
    destruct m as [|a [|b m]]; [injection E as <-; reflexivity|discriminate|].
    inversion F as [|? ? Ha F1]; subst. inversion F1 as [|? ? Hb F2]; subst.
    destruct (hexdigit_hexval a Ha) as (x & Ex & Rx & Dx). destruct (hexdigit_hexval b Hb) as (y & Ey & Ry & Dy).
    cbn [hex2bin] in E. rewrite Ex, Ey in E. destruct (hex2bin m) as [r'|] eqn:Em; [|discriminate]. injection E as <-.
    change (hexdigit ((16 * x + y) / 16) :: hexdigit ((16 * x + y) mod 16) :: bin2hex r' = a :: b :: m).
    replace ((16 * x + y) / 16) with x by lia. replace ((16 * x + y) mod 16) with y by lia.
    rewrite (IH m) by (auto; cbn in Hm; lia). congruence. }
  intros r. apply (G (length l)); auto.
Qed.

Lemma hex2bin_some l : forall k, length l = (2 * k)%nat -> Forall is_hex l -> exists r, hex2bin l = Some r.
Proof.
  intros k. revert l. induction k as [|k IH]; intros l Hl F.
  - destruct l; [|cbn in Hl; lia]. exists []; auto.
  - destruct l as [|a [|b m]]; cbn in Hl; try lia.
    inversion F as [|? ? Ha F1]; subst. inversion F1 as [|? ? Hb F2]; subst.
    destruct (IH m ltac:(lia) F2) as [r Er]. apply hexval_is_hex in Ha, Hb. cbn [hex2bin]. rewrite Er.
    destruct (hexval a); [|congruence]. destruct (hexval b); [|congruence]. eauto.
Qed.

Lemma key_bytes_bytes_key l : forall n, length l = (4 * n)%nat -> Forall is_byte l -> key_bytes (bytes_key l) = l.
Proof.
  intros n. revert l. induction n as [|n IH]; intros l Hl F.
  - destruct l; [reflexivity|cbn in Hl; lia].
  - destruct l as [|a [|b [|c [|d m]]]]; cbn in Hl; try lia.
    inversion F as [|? ? Ha F1]; subst. inversion F1 as [|? ? Hb F2]; subst.
    inversion F2 as [|? ? Hc F3]; subst. inversion F3 as [|? ? Hd F4]; subst.
    cbn [bytes_key]. unfold key_bytes. cbn [flat_map]. fold (key_bytes (bytes_key m)).
    rewrite (IH m) by (auto; lia). unfold word_bytes, bytes_word, is_byte in *. cbn [app].
    repeat f_equal; lia.
Qed.

Lemma str_create s : length s = 64%nat -> Forall is_lower_hex s -> np_dhkey_str (np_dhkey_create_from_hash s) = s.
Proof.
  intros L F. unfold np_dhkey_create_from_hash. rewrite firstn_all2 by lia. rewrite L.
  change (negb (Nat.eqb 64 64)) with false. cbv iota.
  assert (FH : Forall is_hex s) by (eapply Forall_impl; [|exact F]; intros; left; auto).
  replace (forallb _ s) with true.
  2:{ symmetry. apply forallb_forall. intros c Hc. rewrite Forall_forall in FH. specialize (FH c Hc).
      apply hexval_is_hex in FH. destruct (hexval c); auto; congruence. }
  destruct (hex2bin_some s 32 ltac:(lia) FH) as [r Er]. cbn [negb]. rewrite Er.
  pose proof (hex2bin_facts _ _ Er) as [B Lr]. unfold np_dhkey_str.
  rewrite (key_bytes_bytes_key r 8) by (auto; lia). apply bin2hex_hex2bin; auto.
Qed.
