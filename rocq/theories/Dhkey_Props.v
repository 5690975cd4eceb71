(** Headline theorems about keys (properties C01 - C07).  Specifications: Dhkey_Spec.v. *)
From Verif Require Import Base Dhkey_Model Dhkey_Spec Dhkey_Proofs.

(** Sample keys for the non-vacuity examples. *)
Definition kA : key := [1; 2; 3; 4; 5; 6; 7; 4294967295].
Definition kB : key := [1; 2; 3; 4; 5; 6; 8; 0].
Definition kC : key := [4294967295; 0; 0; 0; 0; 0; 0; 17].
Ltac wf_tac := split; [reflexivity | repeat constructor; unfold is_word; lia].
Lemma kA_wf : wf_key kA. Proof. wf_tac. Qed.
Lemma kB_wf : wf_key kB. Proof. wf_tac. Qed.
Lemma kC_wf : wf_key kC. Proof. wf_tac. Qed.

(** C01: the comparison result is the sign of the difference of the 256 bit numbers. *)
Theorem C01_cmp_is_numeric_order : forall a b, wf_key a -> wf_key b ->
  np_dhkey_cmp_ptr (Some a) (Some b) = Z.sgn (kval a - kval b).
Proof. exact cmp_sgn. Qed.
Example C01_nonvacuous : np_dhkey_cmp_ptr (Some kA) (Some kB) = -1 /\ np_dhkey_cmp_ptr (Some kC) (Some kB) = 1.
Proof. split; vm_compute; reflexivity. Qed.

(** C01: zero exactly for identical keys; _np_dhkey_equal agrees. *)
Theorem C01_cmp_zero_iff_equal : forall a b, wf_key a -> wf_key b ->
  (np_dhkey_cmp_ptr (Some a) (Some b) = 0 <-> a = b) /\ (np_dhkey_equal a b = true <-> a = b).
Proof. intros a b Ha Hb; split; [apply cmp_zero|apply equal_spec]; assumption. Qed.

(** C01: total order laws over all 256 bit keys. *)
Theorem C01_cmp_total_order : forall a b c, wf_key a -> wf_key b -> wf_key c ->
  np_dhkey_cmp_ptr (Some a) (Some b) = - np_dhkey_cmp_ptr (Some b) (Some a) /\
  (np_dhkey_cmp_ptr (Some a) (Some b) <= 0 -> np_dhkey_cmp_ptr (Some b) (Some c) <= 0 ->
   np_dhkey_cmp_ptr (Some a) (Some c) <= 0) /\
  (np_dhkey_cmp_ptr (Some a) (Some b) <= 0 \/ np_dhkey_cmp_ptr (Some b) (Some a) <= 0).
Proof.
  intros a b c Ha Hb Hc. change (np_dhkey_cmp_ptr (Some a) (Some b)) with (np_dhkey_cmp a b).
  change (np_dhkey_cmp_ptr (Some b) (Some a)) with (np_dhkey_cmp b a).
  change (np_dhkey_cmp_ptr (Some b) (Some c)) with (np_dhkey_cmp b c).
  change (np_dhkey_cmp_ptr (Some a) (Some c)) with (np_dhkey_cmp a c).
  rewrite !cmp_sgn by assumption. lia.
Qed.

(** C01: a missing key sorts before every present key ... *)
Theorem C01_null_sorts_first : forall a,
  np_dhkey_cmp_ptr None (Some a) = -1 /\ np_dhkey_cmp_ptr (Some a) None = 1.
Proof. intros; split; reflexivity. Qed.
(** ... but two missing keys are not reported as equal (antisymmetry fails there). *)
Theorem C01_null_null_refuted : np_dhkey_cmp_ptr None None = -1.
Proof. reflexivity. Qed.

(** C02 *)
Theorem C02_add_sub_inverse : forall a b, wf_key a -> wf_key b ->
  np_dhkey_sub (np_dhkey_add a b) b = a /\ np_dhkey_add (np_dhkey_sub a b) b = a.
Proof. intros a b Ha Hb; split; [apply sub_add|apply add_sub]; assumption. Qed.
Theorem C02_add_group : forall a b c,
  np_dhkey_add a b = np_dhkey_add b a /\
  np_dhkey_add a (np_dhkey_add b c) = np_dhkey_add (np_dhkey_add a b) c /\
  (wf_key a -> np_dhkey_add a dhkey_min = a).
Proof. intros; repeat split; [apply add_comm|apply add_assoc|apply add_zero]. Qed.
Theorem C02_results_well_formed : forall a b, wf_key a -> wf_key b ->
  wf_key (np_dhkey_add a b) /\ wf_key (np_dhkey_sub a b).
Proof. intros a b Ha Hb; split; [apply add_wf|apply sub_wf]; assumption. Qed.
Example C02_nonvacuous : np_dhkey_add kA kC = [0; 2; 3; 4; 5; 6; 7; 16].
Proof. vm_compute; reflexivity. Qed.
(** The point opposite of a key is reached twice to come back to the key. *)
Theorem C02_midpoint_involutive : forall k, wf_key k -> np_dhkey_midpoint (np_dhkey_midpoint k) = k.
Proof. exact midpoint_involutive. Qed.

(** C03 *)
Theorem C03_distance_symmetric : forall a b, wf_key a -> wf_key b ->
  np_dhkey_distance a b = np_dhkey_distance b a.
Proof. exact distance_sym. Qed.
Theorem C03_distance_self_zero : forall a, wf_key a -> np_dhkey_distance a a = dhkey_min.
Proof. exact distance_self. Qed.
Theorem C03_distance_bounded_by_half : forall a b, wf_key a -> wf_key b ->
  wf_key (np_dhkey_distance a b) /\ kval (np_dhkey_distance a b) <= kval dhkey_half.
Proof.
  intros a b Ha Hb. pose proof (distance_wf a b Ha Hb) as W. split; auto.
  pose proof (distance_bounded a b Ha Hb) as H. rewrite cmp_sgn in H by auto using half_wf. lia.
Qed.
Example C03_nonvacuous : np_dhkey_distance kC kA = [1; 1; 2; 3; 4; 5; 6; 4294967277].
Proof. vm_compute; reflexivity. Qed.
(** Distinct keys at distance zero: exactly the pairs whose word-wise difference is all ones. *)
Theorem C03_distance_zero_exactly_partial : forall a b, wf_key a -> wf_key b -> kval a > kval b ->
  (np_dhkey_distance a b = dhkey_min <-> np_dhkey_sub a b = dhkey_max).
Proof. exact distance_zero_iff_gt. Qed.
Theorem C03_identity_of_indiscernibles_refuted :
  exists a b, wf_key a /\ wf_key b /\ a <> b /\ np_dhkey_distance a b = dhkey_min.
Proof. exists dhkey_max, dhkey_min. repeat split; auto using max_wf, min_wf; try apply max_wf; try apply min_wf. discriminate. Qed.
Theorem C03_triangle_inequality_refuted :
  exists a b m, wf_key a /\ wf_key b /\ wf_key m /\
    kval (np_dhkey_distance a b) > kval (np_dhkey_distance a m) + kval (np_dhkey_distance m b).
Proof.
  exists [1;0;0;0;0;0;0;0], [0;1;0;0;0;0;0;0], [0;0;0;0;0;0;0;0].
  split; [wf_tac|]. split; [wf_tac|]. split; [wf_tac|]. vm_compute; reflexivity.
Qed.
(** The order induced by the distance disagrees with the true distance on the ring. *)
Theorem C03_order_agrees_with_ring_refuted :
  exists k a b, wf_key k /\ wf_key a /\ wf_key b /\
    ring_dist ring (kval k) (kval a) < ring_dist ring (kval k) (kval b) /\
    kval (np_dhkey_distance k b) < kval (np_dhkey_distance k a).
Proof.
  exists [1;0;0;0;0;0;0;0], [0;1;0;0;0;0;0;0], [0;0;0;0;0;0;0;0].
  split; [wf_tac|]. split; [wf_tac|]. split; [wf_tac|]. split; vm_compute; reflexivity.
Qed.

(** C04 *)
Theorem C04_between_is_clockwise_arc : forall t l r incl, wf_key t -> wf_key l -> wf_key r ->
  np_dhkey_between t l r incl = true <->
  (((t = l \/ t = r) /\ incl = true) \/ (t <> l /\ t <> r /\ inside_arc (kval l) (kval r) (kval t))).
Proof. exact between_spec. Qed.
Example C04_nonvacuous : np_dhkey_between kA kC kB false = true /\ np_dhkey_between kC kA kB true = false
  /\ np_dhkey_between kA kA kB true = true.
Proof. repeat split; vm_compute; reflexivity. Qed.

(** C05 *)
Theorem C05_hex_roundtrip : forall k, wf_key k -> np_dhkey_create_from_hash (np_dhkey_str k) = k.
Proof. exact str_roundtrip. Qed.
Theorem C05_hex_form : forall k, wf_key k ->
  length (np_dhkey_str k) = 64%nat /\ Forall is_lower_hex (np_dhkey_str k).
Proof. intros k H; split; [apply str_length; auto|apply bin2hex_lower, key_bytes_byte]. Qed.
Theorem C05_parse_total : forall s, wf_key (np_dhkey_create_from_hash s).
Proof. exact create_wf. Qed.
Theorem C05_short_string_is_zero_key : forall s, (length s < 64)%nat -> np_dhkey_create_from_hash s = dhkey_min.
Proof.
  intros s H. unfold np_dhkey_create_from_hash. rewrite firstn_all2 by lia.
  destruct (Nat.eqb (length s) 64) eqn:E; [apply Nat.eqb_eq in E; lia|reflexivity].
Qed.
Theorem C05_bad_character_is_zero_key : forall s c,
  In c (firstn 64 s) -> ~ is_hex c -> np_dhkey_create_from_hash s = dhkey_min.
Proof.
  intros s c Hi Hc. unfold np_dhkey_create_from_hash.
  destruct (negb (Nat.eqb _ _)); auto.
  destruct (forallb _ (firstn 64 s)) eqn:E; auto.
  rewrite forallb_forall in E. specialize (E c Hi). exfalso. apply Hc. apply hexval_is_hex.
  destruct (hexval c); congruence.
Qed.
Theorem C05_parse_then_print : forall s, length s = 64%nat -> Forall is_lower_hex s ->
  np_dhkey_str (np_dhkey_create_from_hash s) = s.
Proof. exact str_create. Qed.
Theorem C05_case_insensitive : forall s, np_dhkey_create_from_hash (map to_lower s) = np_dhkey_create_from_hash s.
Proof. exact create_lower. Qed.
Theorem C05_hex_injective : forall a b, wf_key a -> wf_key b -> np_dhkey_str a = np_dhkey_str b -> a = b.
Proof. exact str_inj. Qed.
Example C05_nonvacuous : firstn 16 (np_dhkey_str kA) = [48;49;48;48;48;48;48;48;48;50;48;48;48;48;48;48].
Proof. vm_compute; reflexivity. Qed.

(** C06 *)
Theorem C06_index_is_common_hex_prefix : forall a b, wf_key a -> wf_key b ->
  np_dhkey_index a b = Z.of_nat (common_prefix (np_dhkey_str a) (np_dhkey_str b)).
Proof. exact index_spec. Qed.
Theorem C06_index_laws : forall a b, wf_key a -> wf_key b ->
  0 <= np_dhkey_index a b <= 64 /\
  (np_dhkey_index a b = 64 <-> a = b) /\
  np_dhkey_index a b = np_dhkey_index b a.
Proof.
  intros a b Ha Hb. rewrite !index_spec by auto.
  pose proof (common_prefix_le (np_dhkey_str a) (np_dhkey_str b)) as H.
  pose proof (common_prefix_full (np_dhkey_str a) (np_dhkey_str b)) as F.
  rewrite !str_length in F by auto. specialize (F eq_refl). rewrite str_length in H by auto.
  repeat split; try lia.
  - intros E. apply str_inj; auto. apply F. lia.
  - intros ->. destruct F as [_ F]. rewrite F; reflexivity.
  - f_equal. apply common_prefix_sym.
Qed.
Theorem C06_digits_agree_before_and_differ_at_index : forall a b, wf_key a -> wf_key b ->
  (forall i, 0 <= i < np_dhkey_index a b -> np_dhkey_hexalpha_at a i = np_dhkey_hexalpha_at b i) /\
  (np_dhkey_index a b < 64 ->
   np_dhkey_hexalpha_at a (np_dhkey_index a b) <> np_dhkey_hexalpha_at b (np_dhkey_index a b)).
Proof.
  intros a b Ha Hb. pose proof (index_spec a b Ha Hb) as E.
  pose proof (common_prefix_le (np_dhkey_str a) (np_dhkey_str b)) as Hle. rewrite str_length in Hle by auto.
  split.
  - intros i Hi.
    destruct (hexalpha_spec a i Ha ltac:(lia)) as (na & -> & Ra & Na).
    destruct (hexalpha_spec b i Hb ltac:(lia)) as (nb & -> & Rb & Nb).
    rewrite (common_prefix_agree (np_dhkey_str a) (np_dhkey_str b)) in Na by lia.
    f_equal. rewrite Na in Nb. unfold hexdigit in Nb.
    destruct (na <? 10) eqn:?, (nb <? 10) eqn:?; lia.
  - intros Hlt. set (n := np_dhkey_index a b) in *.
    destruct (hexalpha_spec a n Ha ltac:(lia)) as (na & -> & Ra & Na).
    destruct (hexalpha_spec b n Hb ltac:(lia)) as (nb & -> & Rb & Nb).
    intros H; injection H as ->. rewrite <- Nb in Na. rewrite E, Nat2Z.id in Na.
    apply (common_prefix_differ (np_dhkey_str a) (np_dhkey_str b)) in Na; auto;
      rewrite ?str_length by auto; lia.
Qed.
Theorem C06_digit_is_hex_digit : forall k i, wf_key k -> 0 <= i < 64 ->
  exists n, np_dhkey_hexalpha_at k i = Some n /\ 0 <= n < 16 /\
            nth (Z.to_nat i) (np_dhkey_str k) 0 = hexdigit n.
Proof. exact hexalpha_spec. Qed.
Example C06_nonvacuous : np_dhkey_index kA kB = 49 /\ np_dhkey_hexalpha_at kA 49 = Some 7.
Proof. split; vm_compute; reflexivity. Qed.

(** C07: correct below 256 differing bits, wrong (zero) for complementary keys. *)
Theorem C07_hamming_modulo_256_partial : forall a b, wf_key a -> wf_key b ->
  np_dhkey_hamming_distance a b = bits_differing 256 (kval a) (kval b) mod 256 /\
  0 <= bits_differing 256 (kval a) (kval b) <= 256.
Proof. intros a b Ha Hb; split; [apply hamming_spec; auto|apply bits_differing_range]. Qed.
Theorem C07_hamming_exact_unless_complement : forall a b, wf_key a -> wf_key b ->
  bits_differing 256 (kval a) (kval b) <> 256 ->
  np_dhkey_hamming_distance a b = bits_differing 256 (kval a) (kval b).
Proof.
  intros a b Ha Hb H. rewrite hamming_spec by auto.
  pose proof (bits_differing_range 256 (kval a) (kval b)). apply Z.mod_small. lia.
Qed.
Theorem C07_hamming_counts_bits_refuted :
  exists a b, wf_key a /\ wf_key b /\ bits_differing 256 (kval a) (kval b) = 256 /\
              np_dhkey_hamming_distance a b = 0.
Proof.
  exists dhkey_min, dhkey_max. split; [apply min_wf|]. split; [apply max_wf|]. split; vm_compute; reflexivity.
Qed.
Example C07_nonvacuous : np_dhkey_hamming_distance kA kB = 36.
Proof. vm_compute; reflexivity. Qed.

(** C02 (extension): rotation of the key is the 256 bit rotation for 1..31 bits. *)
Theorem C02_rotate_left_is_256bit_rotation : forall k bits, wf_key k -> 1 <= bits <= 31 ->
  exists k', np_dhkey_rotate_left k bits = Ok k' /\ wf_key k' /\ kval k' = rotl (kval k) bits.
Proof. exact rotate_spec. Qed.
Theorem C02_rotate_left_zero_is_undefined : forall k, np_dhkey_rotate_left k 0 = UB.
Proof. reflexivity. Qed.

Print Assumptions C01_cmp_is_numeric_order.
Print Assumptions C01_cmp_zero_iff_equal.
Print Assumptions C01_cmp_total_order.
Print Assumptions C01_null_sorts_first.
Print Assumptions C01_null_null_refuted.
Print Assumptions C02_add_sub_inverse.
Print Assumptions C02_add_group.
Print Assumptions C02_results_well_formed.
Print Assumptions C02_midpoint_involutive.
Print Assumptions C03_distance_symmetric.
Print Assumptions C03_distance_self_zero.
Print Assumptions C03_distance_bounded_by_half.
Print Assumptions C03_distance_zero_exactly_partial.
Print Assumptions C03_identity_of_indiscernibles_refuted.
Print Assumptions C03_triangle_inequality_refuted.
Print Assumptions C03_order_agrees_with_ring_refuted.
Print Assumptions C04_between_is_clockwise_arc.
Print Assumptions C05_hex_roundtrip.
Print Assumptions C05_hex_form.
Print Assumptions C05_parse_total.
Print Assumptions C05_short_string_is_zero_key.
Print Assumptions C05_bad_character_is_zero_key.
Print Assumptions C05_parse_then_print.
Print Assumptions C05_case_insensitive.
Print Assumptions C05_hex_injective.
Print Assumptions C06_index_is_common_hex_prefix.
Print Assumptions C06_index_laws.
Print Assumptions C06_digits_agree_before_and_differ_at_index.
Print Assumptions C06_digit_is_hex_digit.
Print Assumptions C07_hamming_modulo_256_partial.
Print Assumptions C07_hamming_exact_unless_complement.
Print Assumptions C07_hamming_counts_bits_refuted.
Print Assumptions C02_rotate_left_is_256bit_rotation.
Print Assumptions C02_rotate_left_zero_is_undefined.
