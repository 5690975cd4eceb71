(** Proofs about addresses. *)
From Coq Require Import String Ascii.
From Verif Require Import Base Dhkey_Model Dhkey_Proofs Address_Model Address_Spec.
From Coq Require Import List.
Open Scope Z_scope.
Open Scope list_scope.

Lemma streq_eq a b : streq a b = true <-> a = b.
Proof.
  revert b; induction a as [|x a IH]; destruct b as [|y b]; cbn; split; intros H; try congruence; auto.
  - apply andb_true_iff in H. destruct H as [H1 H2]. apply Z.eqb_eq in H1. apply IH in H2. congruence.
  - inversion H; subst. rewrite Z.eqb_refl. apply IH. reflexivity.
Qed.

Lemma streq_refl a : streq a a = true.
Proof. apply streq_eq. reflexivity. Qed.

Lemma strneq_eq n a b : strneq n a b = true <-> firstn n a = firstn n b.
Proof. apply streq_eq. Qed.

Lemma strchr_app c a b : ~ In c a -> strchr c (a ++ c :: b) = Some (length a).
Proof.
  induction a as [|x a IH]; cbn; intros H.
  - rewrite Z.eqb_refl. reflexivity.
  - destruct (x =? c) eqn:E; [apply Z.eqb_eq in E; exfalso; auto|]. rewrite IH by auto. reflexivity.
Qed.

Lemma strchr_none c s : strchr c s = None <-> ~ In c s.
Proof.
  induction s as [|x s IH]; cbn; [tauto|].
  destruct (x =? c) eqn:E.
  - apply Z.eqb_eq in E. split; [discriminate | intros H; exfalso; auto].
  - apply Z.eqb_neq in E. destruct (strchr c s); cbn; split; intros H; try discriminate; try tauto.
    exfalso. apply H. right. destruct IH as [IH1 IH2]. destruct (in_dec Z.eq_dec c s); auto.
    exfalso. specialize (IH2 n0). discriminate.
Qed.

Lemma strchr_some c s i : strchr c s = Some i ->
  s = firstn i s ++ c :: skipn (S i) s /\ ~ In c (firstn i s) /\ length (firstn i s) = i.
Proof.
  revert i; induction s as [|x s IH]; cbn; intros i H; [discriminate|].
  destruct (x =? c) eqn:E.
  - apply Z.eqb_eq in E. inversion H; subst. cbn. auto.
  - apply Z.eqb_neq in E. destruct (strchr c s) as [j|]; [|discriminate]. inversion H; subst.
    destruct (IH j eq_refl) as [A [B C]]. cbn. split; [|split].
    + f_equal. exact A.
    + intros [F|F]; auto.
    + f_equal. exact C.
Qed.

Lemma strrchr_none c s : strrchr c s = None <-> ~ In c s.
Proof.
  induction s as [|x s IH]; cbn; [tauto|].
  destruct (strrchr c s).
  - split; [discriminate|]. intros H. exfalso. apply H. right.
    destruct (in_dec Z.eq_dec c s) as [|N]; auto. apply IH in N. discriminate.
  - destruct (x =? c) eqn:E.
    + apply Z.eqb_eq in E. split; [discriminate|]. intros H. exfalso; auto.
    + apply Z.eqb_neq in E. split; auto. intros _ [F|F]; auto. apply (proj1 IH); auto.
Qed.

Lemma strrchr_app c a b : ~ In c b -> strrchr c (a ++ c :: b) = Some (length a).
Proof.
  intros N. induction a as [|x a IH]; cbn.
  - rewrite (proj2 (strrchr_none c b)) by auto. rewrite Z.eqb_refl. reflexivity.
  - rewrite IH. reflexivity.
Qed.

Lemma strrchr_some c s i : strrchr c s = Some i ->
  s = firstn i s ++ c :: skipn (S i) s /\ ~ In c (skipn (S i) s) /\ length (firstn i s) = i.
Proof.
  revert i; induction s as [|x s IH]; cbn; intros i H; [discriminate|].
  destruct (strrchr c s) as [j|] eqn:R.
  - inversion H; subst. destruct (IH j eq_refl) as [A [B C]]. cbn [firstn skipn app length].
    split; [f_equal; exact A|]. split; [exact B|]. f_equal. exact C.
  - destruct (x =? c) eqn:E; [|discriminate]. apply Z.eqb_eq in E. inversion H; subst.
    cbn. split; auto. split; auto. apply strrchr_none. exact R.
Qed.

Lemma skipn_exact {A} (a b : list A) : skipn (length a) (a ++ b) = b.
Proof. induction a; cbn; auto. Qed.
Lemma firstn_exact {A} (a b : list A) : firstn (length a) (a ++ b) = a.
Proof. induction a; cbn; f_equal; auto. Qed.
Lemma skipn_exact1 {A} (a : list A) x b : skipn (S (length a)) (a ++ x :: b) = b.
Proof. induction a; cbn; auto. Qed.

Lemma details_text a b c d :
  ~ In 58 a -> ~ In 58 b -> ~ In 58 d ->
  node_details (address_text a b c d) = Some (a, b, c, d).
Proof.
  intros Na Nb Nd. unfold node_details, address_text. cbn [app].
  replace (a ++ 58 :: b ++ 58 :: c ++ 58 :: d)
    with ((a ++ 58 :: b ++ 58 :: c) ++ 58 :: d) at 1
    by (rewrite <- app_assoc; cbn; rewrite <- app_assoc; reflexivity).
  rewrite strrchr_app by auto.
  rewrite strchr_app by auto.
  rewrite skipn_exact1. rewrite strchr_app by auto.
  rewrite app_length. cbn [length]. rewrite app_length. cbn [length].
  replace (Nat.eqb (length a) (S (length a) + length b)) with false
    by (symmetry; apply Nat.eqb_neq; lia).
  replace (Nat.eqb (S (length a) + length b) (length a + S (length b + S (length c)))) with false
    by (symmetry; apply Nat.eqb_neq; lia).
  cbn [orb].
  rewrite !firstn_exact.
  replace (length a + S (length b + S (length c)) - S (S (length a) + length b))%nat
    with (length c) by lia.
  assert (S1 : skipn (S (S (length a) + length b)) (a ++ 58 :: b ++ 58 :: c ++ 58 :: d)
               = c ++ 58 :: d).
  { replace (a ++ 58 :: b ++ 58 :: c ++ 58 :: d) with ((a ++ 58 :: b) ++ 58 :: (c ++ 58 :: d))
      by (rewrite <- app_assoc; reflexivity).
    replace (S (length a) + length b)%nat with (length (a ++ 58 :: b))
      by (rewrite app_length; cbn; lia).
    apply skipn_exact1. }
  rewrite S1. rewrite firstn_exact.
  replace (a ++ 58 :: b ++ 58 :: c ++ 58 :: d) with ((a ++ 58 :: b ++ 58 :: c) ++ 58 :: d)
    by (rewrite <- app_assoc; cbn; rewrite <- app_assoc; reflexivity).
  replace (length a + S (length b + S (length c)))%nat with (length (a ++ 58 :: b ++ 58 :: c))
    by (rewrite app_length; cbn; rewrite app_length; cbn; lia).
  rewrite skipn_exact1. reflexivity.
Qed.

Lemma details_inv s a b c d : node_details s = Some (a, b, c, d) ->
  s = address_text a b c d /\ ~ In 58 a /\ ~ In 58 b /\ ~ In 58 d.
Proof.
  unfold node_details. intros H.
  destruct (strrchr 58 s) as [d2|] eqn:R; [|discriminate].
  destruct (strchr 58 s) as [d0|] eqn:F; [|discriminate].
  destruct (strchr 58 (skipn (S d0) s)) as [i|] eqn:G; [|discriminate].
  destruct (Nat.eqb d0 (S d0 + i) || Nat.eqb (S d0 + i) d2) eqn:Q; [discriminate|].
  apply orb_false_iff in Q. destruct Q as [_ Q]. apply Nat.eqb_neq in Q.
  assert (Ea : a = firstn d0 s) by congruence.
  assert (Eb : b = firstn i (skipn (S d0) s)) by congruence.
  assert (Ec : c = firstn (d2 - S (S d0 + i)) (skipn (S (S d0 + i)) s)) by congruence.
  assert (Ed : d = skipn (S d2) s) by congruence.
  clear H. subst a b c d.
  apply strchr_some in F. destruct F as [F1 [F2 F3]].
  apply strchr_some in G. destruct G as [G1 [G2 G3]].
  apply strrchr_some in R. destruct R as [R1 [R2 R3]].
  set (a := firstn d0 s) in *. set (t := skipn (S d0) s) in *.
  set (b := firstn i t) in *. set (u := skipn (S i) t) in *.
  clearbody u b. clearbody t a.
  assert (U : skipn (S (S d0 + i)) s = u).
  { rewrite F1. rewrite G1. rewrite <- F3 at 1. rewrite <- G3 at 1.
    replace (a ++ 58 :: b ++ 58 :: u) with ((a ++ 58 :: b) ++ 58 :: u)
      by (rewrite <- app_assoc; reflexivity).
    replace (S (length a) + length b)%nat with (length (a ++ 58 :: b))
      by (rewrite app_length; cbn; lia).
    apply skipn_exact1. }
  rewrite U.
  assert (L : (S d0 + i < d2)%nat).
  { destruct (Nat.lt_trichotomy (S d0 + i) d2) as [?|[?|C]]; auto; [congruence|]. exfalso.
    apply R2. assert (I : In 58 (skipn (d2 - 0) s) \/ True) by auto. clear I.
    assert (X : nth_error s (S d0 + i) = Some 58).
    { rewrite F1, G1. rewrite <- F3, <- G3.
      replace (a ++ 58 :: b ++ 58 :: u) with ((a ++ 58 :: b) ++ 58 :: u)
        by (rewrite <- app_assoc; reflexivity).
      rewrite nth_error_app2 by (rewrite app_length; cbn; lia).
      rewrite app_length. cbn [length].
      replace (S (length a) + length b - (length a + S (length b)))%nat with 0%nat by lia.
      reflexivity. }
    apply (nth_error_In _ (S d0 + i - S d2)).
    rewrite <- X. clear - C. revert d2 C. generalize (S d0 + i)%nat as n. revert s.
    induction s as [|x s IH]; intros n d2 C.
    - rewrite skipn_nil.
      assert (Q2 : forall k, nth_error (@nil Z) k = None) by (destruct k; reflexivity).
      rewrite !Q2. reflexivity.
    - destruct n; [lia|]. destruct d2.
      + cbn. f_equal. lia.
      + cbn [skipn nth_error]. replace (S n - S (S d2))%nat with (n - S d2)%nat by lia.
        apply IH. lia. }
  assert (Lu : u = firstn (d2 - S (S d0 + i)) u ++ 58 :: skipn (S d2) s).
  { assert (X : skipn (S (S d0 + i)) s =
                skipn (S (S d0 + i)) (firstn d2 s) ++ 58 :: skipn (S d2) s).
    { rewrite R1 at 1. rewrite skipn_app. f_equal.
      replace (S (S d0 + i) - length (firstn d2 s))%nat with 0%nat by lia. reflexivity. }
    rewrite U in X. rewrite X. f_equal.
    rewrite <- X. rewrite <- U. rewrite skipn_firstn_comm. reflexivity. }
  split; [|auto].
  unfold address_text. cbn [app]. rewrite <- Lu. rewrite <- G1. exact F1.
Qed.

(** Protocols. *)
Lemma parse_names s p : names s p -> parse_protocol s = p.
Proof.
  unfold names, protocols. intros H. unfold parse_protocol.
  assert (Q : forall x, strneq 4 s (lit x) = streq (firstn 4 s) (firstn 4 (lit x))) by reflexivity.
  rewrite !Q. generalize dependent (firstn 4 s). clear. intros f H. cbn [In] in H.
  repeat (destruct H as [H|H]; [injection H as <- <-; reflexivity|]).
  destruct H.
Qed.

Lemma names_parse s : parse_protocol s <> UNKNOWN_PROTO -> names s (parse_protocol s).
Proof.
  unfold parse_protocol, names, protocols. intros H.
  assert (Q : forall x, strneq 4 s (lit x) = streq (firstn 4 s) (firstn 4 (lit x))) by reflexivity.
  rewrite !Q in *. generalize dependent (firstn 4 s). clear. intros f H.
  destruct (streq f (firstn 4 (lit "tcp4"))) eqn:E; [apply streq_eq in E; subst f; left; reflexivity|].
  destruct (streq f (firstn 4 (lit "tcp6"))) eqn:E1; [apply streq_eq in E1; subst f; right; left; reflexivity|].
  destruct (streq f (firstn 4 (lit "pas4"))) eqn:E2; [apply streq_eq in E2; subst f; do 2 right; left; reflexivity|].
  destruct (streq f (firstn 4 (lit "pas6"))) eqn:E3; [apply streq_eq in E3; subst f; do 3 right; left; reflexivity|].
  destruct (streq f (firstn 4 (lit "udp4"))) eqn:E4; [apply streq_eq in E4; subst f; do 4 right; left; reflexivity|].
  destruct (streq f (firstn 4 (lit "udp6"))) eqn:E5; [apply streq_eq in E5; subst f; do 5 right; left; reflexivity|].
  congruence.
Qed.

Lemma names_known s p : names s p -> flag p UNKNOWN_PROTO = false /\ p <> UNKNOWN_PROTO.
Proof.
  unfold names, protocols. cbn [In]. intros H.
  repeat (destruct H as [H|H]; [inversion H; subst; split; [reflexivity | discriminate]|]).
  destruct H.
Qed.

Lemma flag_unknown p : flag p UNKNOWN_PROTO = false -> p <> UNKNOWN_PROTO.
Proof. intros H ->. discriminate. Qed.

Lemma parse_flag s : flag (parse_protocol s) UNKNOWN_PROTO = false <-> parse_protocol s <> UNKNOWN_PROTO.
Proof.
  split; [apply flag_unknown|]. intros H. apply names_parse in H.
  apply (proj1 (names_known _ _ H)).
Qed.

Lemma protocols_unique n p q : In (n, p) protocols -> In (n, q) protocols -> p = q.
Proof.
  intros H1 H2.
  assert (P : names n p /\ names n q).
  { unfold names. assert (F : firstn 4 n = n).
    { unfold protocols in H1. cbn [In] in H1.
      repeat (destruct H1 as [H1|H1]; [inversion H1; reflexivity|]). destruct H1. }
    rewrite F. auto. }
  destruct P as [P Q]. apply parse_names in P. apply parse_names in Q. congruence.
Qed.

Lemma names_unique s p q : names s p -> names s q -> p = q.
Proof. unfold names. apply protocols_unique. Qed.

Lemma protocol_string_name p n : In (n, p) protocols -> protocol_string p = n.
Proof.
  unfold protocols. cbn [In]. intros H.
  repeat (destruct H as [H|H]; [inversion H; subst; reflexivity|]). destruct H.
Qed.

Lemma name_nocolon n p : In (n, p) protocols -> ~ In 58 n /\ length n = 4%nat /\ firstn 4 n = n.
Proof.
  unfold protocols. cbn [In]. intros H.
  repeat (destruct H as [H|H]; [inversion H; subst; cbn; split; [intuition discriminate | auto]|]).
  destruct H.
Qed.

(** Fingerprints. *)
Lemma hex_not_colon s : Forall hex_char s -> ~ In 58 s.
Proof.
  intros F I. rewrite Forall_forall in F. specialize (F 58 I). unfold hex_char in F. lia.
Qed.

Lemma hex_hexval c : hex_char c <-> exists v, hexval c = Some v.
Proof.
  unfold hex_char, hexval. split.
  - intros H.
    destruct ((48 <=? c) && (c <=? 57)) eqn:A; [eauto|].
    destruct ((97 <=? c) && (c <=? 102)) eqn:B; [eauto|].
    destruct ((65 <=? c) && (c <=? 70)) eqn:C; [eauto|]. exfalso. lia.
  - intros [v H].
    destruct ((48 <=? c) && (c <=? 57)) eqn:A; [lia|].
    destruct ((97 <=? c) && (c <=? 102)) eqn:B; [lia|].
    destruct ((65 <=? c) && (c <=? 70)) eqn:C; [lia|discriminate].
Qed.

Lemma hexval_range c v : hexval c = Some v -> 0 <= v < 16 /\ (v = 0 <-> c = 48).
Proof.
  unfold hexval.
  destruct ((48 <=? c) && (c <=? 57)) eqn:A; [intros H; inversion H; lia|].
  destruct ((97 <=? c) && (c <=? 102)) eqn:B; [intros H; inversion H; lia|].
  destruct ((65 <=? c) && (c <=? 70)) eqn:C; [intros H; inversion H; lia|discriminate].
Qed.

Lemma zero_text s : length s = 64%nat -> Forall hex_char s ->
  np_dhkey_create_from_hash s = dhkey_min -> Forall (fun c => c = 48) s.
Proof.
  intros L F Q. rewrite <- create_lower in Q.
  assert (LL : Forall Dhkey_Spec.is_lower_hex (map Dhkey_Spec.to_lower s)).
  { apply Forall_forall. intros c I. apply in_map_iff in I. destruct I as [x [Ex Ix]].
    rewrite Forall_forall in F. specialize (F x Ix). unfold hex_char in F.
    unfold Dhkey_Spec.is_lower_hex. subst c. unfold Dhkey_Spec.to_lower.
    destruct ((65 <=? x) && (x <=? 90)) eqn:B; lia. }
  assert (S1 : np_dhkey_str (np_dhkey_create_from_hash (map Dhkey_Spec.to_lower s))
               = map Dhkey_Spec.to_lower s) by (apply str_create; [rewrite map_length|]; auto).
  rewrite Q in S1. change (np_dhkey_str dhkey_min) with (repeat 48 64) in S1.
  apply Forall_forall. intros c I.
  assert (I2 : In (Dhkey_Spec.to_lower c) (repeat 48 64)) by (rewrite S1; apply in_map; auto).
  apply repeat_spec in I2. unfold Dhkey_Spec.to_lower in I2.
  destruct ((65 <=? c) && (c <=? 90)) eqn:B; lia.
Qed.

Lemma fingerprint_key s : fingerprint_text s -> not_all_zero s ->
  np_dhkey_equal dhkey_min (np_dhkey_create_from_hash s) = false.
Proof.
  intros [L F] N. destruct (np_dhkey_equal dhkey_min (np_dhkey_create_from_hash s)) eqn:Q; auto.
  apply equal_spec in Q; [|split; [reflexivity | unfold dhkey_min; repeat constructor; unfold is_word; lia] | apply create_wf].
  exfalso. symmetry in Q. apply zero_text in Q; auto.
  apply Exists_exists in N. destruct N as [c [I D]]. rewrite Forall_forall in Q. auto.
Qed.

Lemma decode_text fpr proto p host port :
  fingerprint_text fpr -> not_all_zero fpr -> In (proto, p) protocols ->
  (length host <= 40)%nat -> (length port <= 5)%nat -> ~ In 58 port ->
  node_decode_from_str (address_text fpr proto host port) = Ok (Some (Node fpr p host port)).
Proof.
  intros F N P Lh Lp Np. unfold node_decode_from_str.
  pose proof (name_nocolon _ _ P) as [C4 [L4 F4]].
  destruct F as [L64 F].
  destruct (address_text fpr proto host port) eqn:A.
  { apply (f_equal (@length Z)) in A. unfold address_text in A. rewrite !app_length in A. cbn in A. lia. }
  rewrite <- A. rewrite firstn_all2.
  2:{ unfold address_text. rewrite !app_length. cbn [length]. lia. }
  rewrite details_text; auto using hex_not_colon.
  assert (PN : names proto p) by (unfold names; rewrite F4; auto).
  rewrite (parse_names _ _ PN). rewrite (proj1 (names_known _ _ PN)).
  rewrite fingerprint_key; auto; [|split; auto].
  unfold node_update. rewrite !firstn_all2 by lia. reflexivity.
Qed.

(** Decimal numbers. *)
Lemma decimal_length m : forall n x, 0 <= x < 10 ^ Z.of_nat (S n) ->
  (length (decimal_fuel m x) <= S n)%nat.
Proof.
  induction m as [|m IH]; intros n x H; cbn [decimal_fuel]; [cbn; lia|].
  destruct (x <? 10) eqn:L; [cbn; lia|]. apply Z.ltb_ge in L.
  destruct n as [|n]; [cbn in H; lia|].
  rewrite app_length. cbn [length].
  assert (B : 0 <= x / 10 < 10 ^ Z.of_nat (S n)).
  { rewrite (Nat2Z.inj_succ (S n)) in H. rewrite Z.pow_succ_r in H by lia. split.
    - apply Z.div_pos; lia.
    - apply Z.div_lt_upper_bound; lia. }
  specialize (IH n (x / 10) B). lia.
Qed.

Lemma decimal_digits m x : 0 <= x -> Forall (fun c => 48 <= c <= 57) (decimal_fuel m x).
Proof.
  revert x; induction m as [|m IH]; intros x H; cbn [decimal_fuel]; [constructor|].
  destruct (x <? 10) eqn:L.
  - repeat constructor; lia.
  - apply Forall_app. split; [apply IH; apply Z.div_pos; lia|].
    repeat constructor; pose proof (Z.mod_pos_bound x 10); lia.
Qed.

Lemma digit_value_app a c : digit_value (a ++ [c]) = 10 * digit_value a + (c - 48).
Proof. unfold digit_value. rewrite fold_left_app. reflexivity. Qed.

Lemma decimal_value m : forall x, 0 <= x < 10 ^ Z.of_nat (S m) -> digit_value (decimal_fuel (S m) x) = x.
Proof.
  induction m as [|m IH]; intros x H.
  - cbn [decimal_fuel]. cbn in H. replace (x <? 10) with true by lia. unfold digit_value. cbn. lia.
  - remember (S m) as n. cbn [decimal_fuel]. destruct (x <? 10) eqn:L.
    + unfold digit_value. cbn. lia.
    + rewrite digit_value_app. rewrite IH.
      * pose proof (Z.div_mod x 10). lia.
      * rewrite (Nat2Z.inj_succ n) in H. rewrite Z.pow_succ_r in H by lia. split.
        -- apply Z.div_pos; lia.
        -- apply Z.div_lt_upper_bound; lia.
Qed.

Lemma decimal_head m : forall x, 0 <= x < 10 ^ Z.of_nat (S m) ->
  decimal_fuel (S m) x <> [] /\ (hd 0 (decimal_fuel (S m) x) = 48 -> decimal_fuel (S m) x = [48]).
Proof.
  induction m as [|m IH]; intros x H.
  - cbn [decimal_fuel]. cbn in H. replace (x <? 10) with true by lia. split; [discriminate|].
    cbn. intros Q. rewrite Q. reflexivity.
  - remember (S m) as n. cbn [decimal_fuel]. destruct (x <? 10) eqn:L.
    + split; [discriminate|]. cbn. intros Q. rewrite Q. reflexivity.
    + apply Z.ltb_ge in L.
      assert (B : 0 <= x / 10 < 10 ^ Z.of_nat n).
      { rewrite (Nat2Z.inj_succ n) in H. rewrite Z.pow_succ_r in H by lia. split.
        - apply Z.div_pos; lia.
        - apply Z.div_lt_upper_bound; lia. }
      destruct (IH (x / 10) B) as [N1 N2]. split.
      * intros Q. apply app_eq_nil in Q. destruct Q as [_ Q]. discriminate.
      * intros Q. exfalso. destruct (decimal_fuel n (x / 10)) as [|c r] eqn:D; [congruence|].
        cbn in Q. specialize (N2 Q). rewrite <- D in N2.
        pose proof (f_equal digit_value N2) as V. subst n. rewrite decimal_value in V by auto.
        change (digit_value [48]) with 0 in V.
        assert (1 <= x / 10) by (apply Z.div_le_lower_bound; lia). lia.
Qed.

Lemma decimal_ok x : 0 <= x < 65536 ->
  decimal_text (decimal x) x /\ (length (decimal x) <= 5)%nat /\ ~ In 58 (decimal x).
Proof.
  intros H. unfold decimal_text, decimal.
  assert (H6 : 0 <= x < 10 ^ Z.of_nat 6) by (cbn; lia).
  destruct (decimal_head 5 x H6) as [N1 N2].
  pose proof (decimal_digits 6 x ltac:(lia)) as D.
  split; [split; [apply (decimal_value 5 x H6)|]; split; [exact D|]; split; auto|].
  split.
  - apply (decimal_length 6 4). cbn. lia.
  - intros I. rewrite Forall_forall in D. specialize (D 58 I). lia.
Qed.

(** The token of an interface. *)
Lemma token_node name p ip port issuer :
  In (name, p) protocols -> (length ip <= 40)%nat -> (length port <= 5)%nat -> ~ In 58 port ->
  length issuer = 64%nat ->
  node_from_token (handshake_subject p ip port) issuer = Some (Node issuer p ip port).
Proof.
  intros P Li Lp Np Ls. pose proof (name_nocolon _ _ P) as [C4 [L4 F4]].
  unfold node_from_token, handshake_subject. rewrite (protocol_string_name _ _ P).
  rewrite (firstn_all2 (n := 253)).
  2:{ rewrite !app_length. cbn [length lit]. change (length (lit "urn:np:node:")) with 12%nat.
      change (length (lit ":")) with 1%nat. lia. }
  change (skipn 10 (lit "urn:np:node:" ++ name ++ lit ":" ++ ip ++ lit ":" ++ port))
    with (address_text (lit "e") name ip port).
  rewrite firstn_all2.
  2:{ unfold address_text. rewrite !app_length. cbn [length]. change (length (lit "e")) with 1%nat. lia. }
  rewrite details_text; auto.
  2:{ cbn. intuition discriminate. }
  assert (PN : names name p) by (unfold names; rewrite F4; auto).
  rewrite (parse_names _ _ PN). rewrite (proj1 (names_known _ _ PN)).
  unfold node_update. rewrite !firstn_all2 by lia. reflexivity.
Qed.

Definition good_port (port : str) : Prop := (length port <= 5)%nat /\ ~ In 58 port.

Definition iface_entry (E : env) (c : ctx) (p : Z) (ip port : str) : entry :=
  Entry (fp E (made c) (handshake_subject p ip port)) 36
        (Some (Node (np_dhkey_str (me c)) p ip port)).

(** All results of _np_listen_safe. *)
Lemma names_not_unknown pr : parse_protocol pr = UNKNOWN_PROTO -> forall p, ~ names pr p.
Proof.
  intros U p Hn. pose proof (parse_names _ _ Hn) as Q. apply (proj2 (names_known _ _ Hn)). congruence.
Qed.

Lemma listen_cases E c pr host port r :
  os_ok E -> wf_key (me c) -> good_port port -> listen_safe E c pr host port = r ->
  (r = Ok (np_invalid_argument, c) /\
     (forall p ip, names pr p -> local_ip E (firstn 255 host) p <> Some ip))
  \/ exists p ip, names pr p /\ local_ip E (firstn 255 host) p = Some ip /\
     ((exists m, main_ip c = Some m /\ firstn 50 m = firstn 50 ip /\ r = Ok (np_ok, c)) \/
      ((forall m, main_ip c = Some m -> firstn 50 m <> firstn 50 ip) /\
       r = Ok (np_ok,
         Ctx (me c) (me_id c) (match main_ip c with Some m => Some m | None => Some ip end)
             (running c) (ins (iface_entry E c p ip port) (ifaces c)) (others c)
             (if negb (flag p PASSIVE) && bind_ok E (made c)
              then (p, ip, port) :: sockets c else sockets c) (S (made c))))).
Proof.
  intros OS W [Lp Np] <-. unfold listen_safe.
  destruct (parse_protocol pr =? UNKNOWN_PROTO) eqn:U.
  { left. split; auto. intros p ip Hn. apply Z.eqb_eq in U. exfalso. eapply names_not_unknown; eauto. }
  apply Z.eqb_neq in U. pose proof (names_parse _ U) as Hn. set (p := parse_protocol pr) in *.
  destruct (local_ip E (firstn 255 host) p) as [ip|] eqn:LI.
  2:{ left. split; auto. intros p' ip' Hn'. rewrite (names_unique _ _ _ Hn' Hn). congruence. }
  right. exists p, ip. split; auto. split; auto.
  pose proof (OS _ _ _ LI) as L40.
  destruct (match main_ip c with Some m => strneq 50 m ip | None => false end) eqn:M.
  { left. destruct (main_ip c) as [m|]; [|discriminate]. exists m. apply strneq_eq in M. auto. }
  right. split.
  { intros m Q. rewrite Q in M. intros X. apply strneq_eq in X. congruence. }
  unfold names in Hn.
  rewrite (token_node _ _ _ _ _ Hn); auto; [|apply str_length; auto].
  cbn [n_proto n_ip n_port]. rewrite (firstn_all2 (n := 50) ip) by lia.
  change (Z.lor key_type_node key_type_interface) with 36. reflexivity.
Qed.

Lemma in_ins x y l : In y (ins x l) -> y = x \/ In y l.
Proof.
  induction l as [|z l IH]; cbn [ins].
  - intros [H|[]]; auto.
  - destruct (np_dhkey_cmp (e_key x) (e_key z) =? 0); [auto|].
    destruct (np_dhkey_cmp (e_key x) (e_key z) <? 0).
    + intros [H|H]; auto.
    + intros [H|H]; [right; left; auto|]. destruct (IH H); auto. right; right; auto.
Qed.

Lemma ins_keeps x y l : In y l -> In y (ins x l).
Proof.
  induction l as [|z l IH]; cbn [ins]; intros H; [destruct H|].
  destruct (np_dhkey_cmp (e_key x) (e_key z) =? 0); [auto|].
  destruct (np_dhkey_cmp (e_key x) (e_key z) <? 0); [right; auto|].
  destruct H as [H|H]; [left; auto | right; auto].
Qed.

(** What np_send_join does to the context. *)
Lemma send_join_ctx E c s c1 j : send_join E c s = Ok (c1, j) ->
  c1 = c \/ exists pr host rip p, listen_safe E c pr host (lit "31415") = Ok (np_ok, c1) /\
                                 can_be_reached E c rip p = Ok false /\ pr = protocol_string (Z.lor p PASSIVE).
Proof.
  unfold send_join. destruct (node_decode_from_str s) as [d| |]; cbn [obind]; try discriminate.
  destruct d as [n0|]; [|intros H; inversion H; auto].
  destruct (flag (n_proto n0) PASSIVE); [intros H; inversion H; auto|].
  match goal with |- context [find_by_details c ?d] => destruct (find_by_details c d) end;
    [intros H; inversion H; auto|].
  cbn [n_ip n_proto n_port n_key].
  match goal with |- context [can_be_reached E c ?a ?b] =>
    destruct (can_be_reached E c a b) as [[|]| |] eqn:R; set (rip := a) in *; set (p := b) in * end;
    cbn [obind]; try discriminate.
  - repeat match goal with |- context [if ?b then _ else _] => destruct b end;
      intros H; inversion H; auto.
  - destruct (outgoing_ip E rip p) as [lip|]; cbn [obind]; [|intros H; inversion H; auto].
    destruct (listen_safe E c (protocol_string (Z.lor p PASSIVE)) lip (lit "31415"))
      as [[ret c2]| |] eqn:L; cbn [obind]; try discriminate.
    destruct (ret =? np_ok) eqn:Q; cbn [negb obind]; [|intros H; inversion H; auto].
    apply Z.eqb_eq in Q. subst ret.
    destruct (can_be_reached E c2 rip p) as [[|]| |]; cbn [obind]; try discriminate;
      repeat match goal with |- context [if ?b then _ else _] => destruct b end;
      intros H; inversion H; subst; right;
      exists (protocol_string (Z.lor p PASSIVE)), lip, rip, p; auto.
Qed.

Lemma join_ctx E c a r c1 j : np_join E c a = Ok (r, c1, j) ->
  c1 = c \/ exists pr host rip p, listen_safe E c pr host (lit "31415") = Ok (np_ok, c1) /\
                                 can_be_reached E c rip p = Ok false /\ pr = protocol_string (Z.lor p PASSIVE).
Proof.
  unfold np_join. destruct a as [s|]; [|intros H; inversion H; auto].
  destruct (Nat.leb (length s) 10); [intros H; inversion H; auto|].
  destruct (Nat.leb 500 (length s)); [intros H; inversion H; auto|].
  destruct (negb (running c)); [intros H; inversion H; auto|].
  destruct (send_join E c s) as [[c2 j2]| |] eqn:S; cbn [obind]; try discriminate.
  intros H; inversion H; subst. eapply send_join_ctx; eauto.
Qed.

(** States before the first address. *)
Definition fresh (c : ctx) : Prop := main_ip c = None /\ ifaces c = [].

Lemma fresh_unreachable E c rip p b : fresh c -> can_be_reached E c rip p <> Ok b.
Proof.
  intros [M I]. unfold can_be_reached, find_interface, find_main_interface. rewrite I, M. cbn.
  discriminate.
Qed.

Definition on_machine (E : env) (ip : str) : Prop := exists host p, local_ip E host p = Some ip.

(** States after the first address: own key, protocol, address, port. *)
Definition bound (E : env) (nk : key) (p : Z) (ip port : str) (c : ctx) : Prop :=
  me c = nk /\ main_ip c = Some ip /\
  (exists k, In (Entry k 36 (Some (Node (np_dhkey_str nk) p ip port))) (ifaces c)) /\
  (forall e, In e (ifaces c) -> e_type e = 36 /\
     exists n, e_node e = Some n /\ on_machine E (n_ip n) /\
               (n_ip n = ip -> n = Node (np_dhkey_str nk) p ip port)).

Lemma port_31415 : good_port (lit "31415").
Proof. split; [cbn; lia|]. cbn. intuition discriminate. Qed.

Lemma port_decimal o : 0 <= o < 65536 -> good_port (decimal o).
Proof. intros H. destruct (decimal_ok o H) as [_ [A B]]. split; auto. Qed.

Lemma listen_bound E nk p ip port c pr host o r c1 :
  os_ok E -> wf_key nk -> bound E nk p ip port c -> good_port o ->
  (length ip <= 40)%nat ->
  listen_safe E c pr host o = Ok (r, c1) -> bound E nk p ip port c1.
Proof.
  intros OS W B G L40 H. destruct B as [B1 [B2 [B3 B4]]].
  assert (Wc : wf_key (me c)) by congruence.
  destruct (listen_cases E c pr host o _ OS Wc G eq_refl)
    as [[Q _]|[p' [ip' [Hn [LI [[m [M [F Q]]]|[F Q]]]]]]]; rewrite H in Q; inversion Q; subst; clear Q.
  - split; [auto|]. split; [auto|]. split; auto.
  - split; [auto|]. split; [auto|]. split; auto.
  - split; [auto|]. cbn [me main_ip ifaces]. rewrite B2. split; [auto|]. split.
    + destruct B3 as [k K]. exists k. apply ins_keeps. auto.
    + intros e I. apply in_ins in I. destruct I as [-> | I]; [|auto].
      cbn [e_type e_node iface_entry]. split; auto.
      eexists. split; [reflexivity|]. cbn [n_ip]. split; [exists (firstn 255 host), p'; auto|].
      intros <-. exfalso. apply (F ip' B2). reflexivity.
Qed.

Lemma step_bound E nk p ip port c k c1 :
  os_ok E -> wf_key nk -> (length ip <= 40)%nat ->
  (forall pr h o, k = Listen pr h o -> 0 <= o < 65536) ->
  bound E nk p ip port c -> step E c k = Ok c1 -> bound E nk p ip port c1.
Proof.
  intros OS W L40 PO B H. destruct k as [pr h o| |a|es]; cbn [step] in H.
  - unfold np_listen in H.
    destruct (listen_safe E c (firstn 5 pr) (firstn 255 h) (decimal o)) as [[r c2]| |] eqn:L;
      cbn [obind snd] in H; inversion H; subst.
    eapply listen_bound; eauto. apply port_decimal. eapply PO; eauto.
  - unfold np_run in H. destruct B as [B1 [B2 [B3 B4]]]. rewrite B2 in H. cbn [obind snd] in H.
    inversion H; subst. split; [auto|]. split; [auto|]. split; auto.
  - destruct (np_join E c a) as [[[r c2] j]| |] eqn:J; cbn [obind snd fst] in H; inversion H; subst.
    destruct (join_ctx _ _ _ _ _ _ J) as [-> | [pr [h [rip [q [L [_ _]]]]]]]; auto.
    eapply listen_bound; eauto. apply port_31415.
  - inversion H; subst. destruct B as [B1 [B2 [B3 B4]]].
    split; [auto|]. split; [auto|]. split; auto.
Qed.

Lemma names_firstn5 s p : names (firstn 5 s) p <-> names s p.
Proof. unfold names. rewrite firstn_firstn. reflexivity. Qed.

Lemma step_fresh E nk c k c1 :
  os_ok E -> wf_key nk -> me c = nk -> fresh c ->
  (forall pr h o, k = Listen pr h o -> 0 <= o < 65536) ->
  step E c k = Ok c1 ->
  (me c1 = nk /\ fresh c1 /\ forall p ip port, ~ asks E k p ip port) \/
  (exists p ip port, asks E k p ip port /\ bound E nk p ip (decimal port) c1 /\ (length ip <= 40)%nat).
Proof.
  intros OS W M [F1 F2] PO H.
  assert (LI : forall pr h o r c2, good_port o ->
     listen_safe E c pr h o = Ok (r, c2) ->
     (c2 = c /\ forall p ip, names pr p -> local_ip E (firstn 255 h) p <> Some ip) \/
     exists p ip, names pr p /\ local_ip E (firstn 255 h) p = Some ip /\ bound E nk p ip o c2).
  { intros pr h o r c2 G L.
    assert (Wc : wf_key (me c)) by congruence.
    destruct (listen_cases E c pr h o _ OS Wc G eq_refl)
      as [[Q Q2]|[p' [ip' [Hn [Li [[m [M1 [F Q]]]|[F Q]]]]]]]; rewrite L in Q; inversion Q; subst; clear Q.
    - left. auto.
    - congruence.
    - right. exists p', ip'. split; auto. split; auto. rewrite F1, F2. cbn [ins].
      split; [reflexivity|]. cbn [main_ip ifaces]. split; [reflexivity|]. split.
      + eexists. left. reflexivity.
      + intros e [<-|[]]. cbn. split; auto. eexists. split; [reflexivity|]. cbn.
        split; [exists (firstn 255 h), p'; auto|]. auto. }
  destruct k as [pr h o| |a|es]; cbn [step] in H.
  - unfold np_listen in H.
    destruct (listen_safe E c (firstn 5 pr) (firstn 255 h) (decimal o)) as [[r c2]| |] eqn:L;
      cbn [obind snd] in H; inversion H; subst.
    destruct (LI _ _ _ _ _ (port_decimal _ (PO _ _ _ eq_refl)) L) as [[-> Q]|[p [ip [Hn [Li B]]]]].
    + left. split; auto. split; [split; auto|]. intros p ip port [A1 [A2 A3]].
      apply names_firstn5 in A1. apply (Q p ip A1). rewrite firstn_firstn. exact A2.
    + right. exists p, ip, o. rewrite firstn_firstn in Li. cbn in Li. split; [|split; [auto|]].
      * split; [apply names_firstn5; auto|]. auto.
      * eapply OS; eauto.
  - unfold np_run in H. rewrite F1 in H. unfold np_listen in H.
    destruct (listen_safe E c (firstn 5 (protocol_string (Z.lor PASSIVE IPv4)))
               (firstn 255 (lit "localhost")) (decimal 31415)) as [[r c2]| |] eqn:L;
      cbn [obind snd] in H; inversion H; subst.
    assert (N258 : names (firstn 5 (protocol_string (Z.lor PASSIVE IPv4))) 258)
      by (right; right; left; reflexivity).
    destruct (LI _ _ _ _ _ (port_decimal 31415 ltac:(lia)) L) as [[-> Q]|[p [ip [Hn [Li B]]]]].
    + left. split; auto. split; [split; auto|]. intros p ip port [A1 [A2 A3]].
      apply (Q 258 ip N258). exact A2.
    + right. exists p, ip, 31415. pose proof (names_unique _ _ _ Hn N258). subst p.
      split; [|split].
      * split; [auto|]. split; auto.
      * destruct B as [B1 [B2 [B3 B4]]]. split; [auto|]. split; [auto|]. split; auto.
      * eapply OS; eauto.
  - destruct (np_join E c a) as [[[r c2] j]| |] eqn:J; cbn [obind snd fst] in H; inversion H; subst.
    destruct (join_ctx _ _ _ _ _ _ J) as [-> | [pr [h [rip [q [L [R _]]]]]]].
    + left. split; auto. split; [split; auto|]. intros p ip port A. exact A.
    + exfalso. apply (fresh_unreachable E c rip q false); auto. split; auto.
  - inversion H; subst. left. split; auto. split; [split; auto|]. intros p ip port A. exact A.
Qed.

Lemma run_app E c h1 h2 c2 : run E c (h1 ++ h2) = Ok c2 ->
  exists c1, run E c h1 = Ok c1 /\ run E c1 h2 = Ok c2.
Proof.
  revert c; induction h1 as [|k h1 IH]; cbn; intros c H; [eauto|].
  destruct (step E c k) as [c1| |]; cbn [obind] in *; try discriminate. auto.
Qed.

Lemma run_bound E nk p ip port h : forall c c1,
  os_ok E -> wf_key nk -> (length ip <= 40)%nat -> ports_ok h ->
  bound E nk p ip port c -> run E c h = Ok c1 -> bound E nk p ip port c1.
Proof.
  induction h as [|k h IH]; intros c c1 OS W L PO B H; cbn in H; [inversion H; subst; auto|].
  destruct (step E c k) as [c2| |] eqn:S; cbn [obind] in H; try discriminate.
  apply (IH c2); auto.
  - intros pr h' o I. apply (PO pr h'). right. auto.
  - eapply step_bound; eauto. intros pr h' o ->. apply (PO pr h'). left. auto.
Qed.

Lemma run_fresh E nk h : forall c c1,
  os_ok E -> wf_key nk -> ports_ok h -> me c = nk -> fresh c ->
  (forall k p ip port, In k h -> ~ asks E k p ip port) ->
  run E c h = Ok c1 -> me c1 = nk /\ fresh c1.
Proof.
  induction h as [|k h IH]; intros c c1 OS W PO M F N H; cbn in H; [inversion H; subst; auto|].
  destruct (step E c k) as [c2| |] eqn:S; cbn [obind] in H; try discriminate.
  destruct (step_fresh E nk c k c2 OS W M F) as [[A [B _]]|[p [ip [port [A _]]]]]; auto.
  - intros pr h' o ->. apply (PO pr h'). left. auto.
  - apply (IH c2 c1); auto.
    + intros pr h' o I. apply (PO pr h'). right. auto.
    + intros k' p ip port I. apply N. right. auto.
  - exfalso. eapply N; [left; reflexivity|eauto].
Qed.

Lemma run_first E nk ik h c p ip port :
  os_ok E -> wf_key nk -> ports_ok h -> run E (new_ctx nk ik) h = Ok c ->
  first_asked E h p ip port -> bound E nk p ip (decimal port) c /\ (length ip <= 40)%nat /\ 0 <= port < 65536.
Proof.
  intros OS W PO H [h1 [k [h2 [-> [A N]]]]].
  apply run_app in H. destruct H as [c1 [H1 H2]]. cbn in H2.
  destruct (step E c1 k) as [c2| |] eqn:S; cbn [obind] in H2; try discriminate.
  assert (PO1 : ports_ok h1) by (intros pr h' o I; apply (PO pr h'); apply in_or_app; auto).
  assert (PO2 : ports_ok h2)
    by (intros pr h' o I; apply (PO pr h'); apply in_or_app; right; right; auto).
  assert (POk : forall pr h o, k = Listen pr h o -> 0 <= o < 65536)
    by (intros pr h' o ->; apply (PO pr h'); apply in_or_app; right; left; auto).
  destruct (run_fresh E nk h1 (new_ctx nk ik) c1) as [M F]; auto; [split; reflexivity|].
  destruct (step_fresh E nk c1 k c2 OS W M F POk S) as [[_ [_ Q]]|[p' [ip' [port' [A' [B L]]]]]];
    [exfalso; eapply Q; eauto|].
  assert (EQ : p' = p /\ ip' = ip /\ port' = port).
  { destruct k as [pr h o| |a|es]; cbn in A, A'; try tauto.
    - destruct A as [A1 [A2 A3]], A' as [B1 [B2 B3]]. pose proof (names_unique _ _ _ A1 B1). subst.
      split; auto. split; congruence.
    - destruct A as [A1 [A2 A3]], A' as [B1 [B2 B3]]. subst. split; auto. split; congruence. }
  destruct EQ as [-> [-> ->]]. split; [|split; auto].
  - eapply run_bound; eauto.
  - destruct k as [pr h o| |a|es]; cbn in A; try tauto.
    + destruct A as [_ [_ <-]]. eauto.
    + destruct A as [_ [_ ->]]. lia.
Qed.

Lemma bound_names E nk p ip port c : bound E nk p ip port c -> main_ip c = Some ip.
Proof. intros [_ [H _]]. exact H. Qed.

Lemma flag_iface : flag 36 key_type_interface = true.
Proof. reflexivity. Qed.

(** The main interface is found. *)
Lemma bound_find E nk p ip port c :
  bound E nk p ip port c -> (length ip <= 40)%nat ->
  (forall ip', on_machine E ip' -> prefix_of ip ip' -> ip' = ip) ->
  exists e, find_interface c ip = Some e /\ e_node e = Some (Node (np_dhkey_str nk) p ip port).
Proof.
  intros [B1 [B2 [[k K] B4]]] L U. unfold find_interface.
  match goal with |- context [find ?f ?l] => destruct (find f l) as [e|] eqn:Fd end.
  - exists e. split; auto. apply find_some in Fd. destruct Fd as [I T].
    destruct (B4 e I) as [Ty [n [Hn [OM X]]]]. rewrite Hn in T. apply andb_true_iff in T.
    destruct T as [_ T]. apply strneq_eq in T.
    rewrite Nat.min_l in T by lia. rewrite (firstn_all ip) in T.
    assert (n_ip n = ip).
    { apply U; auto. exists (skipn (length ip) (n_ip n)). rewrite <- T at 1. symmetry. apply firstn_skipn. }
    rewrite Hn. f_equal. auto.
  - exfalso. pose proof (find_none _ _ Fd _ K) as Q. cbn [e_type e_node n_ip] in Q.
    rewrite flag_iface in Q. cbn [andb] in Q. unfold strneq in Q. rewrite streq_refl in Q. discriminate.
Qed.

(** Private addresses. *)
Lemma private_block_ranges a : 0 <= a < 4294967296 ->
  match private_block a with
  | Some _ => ((167772160 <=? a) && (a <=? 184549375))
              || ((2886729728 <=? a) && (a <=? 2887778303))
              || ((3232235520 <=? a) && (a <=? 3232301055)) = true
  | None => ((167772160 <=? a) && (a <=? 184549375))
              || ((2886729728 <=? a) && (a <=? 2887778303))
              || ((3232235520 <=? a) && (a <=? 3232301055)) = false
  end.
Proof.
  intros H. unfold private_block, octet1, octet2.
  pose proof (Z.div_mod a 16777216 ltac:(lia)) as D1.
  pose proof (Z.mod_pos_bound a 16777216 ltac:(lia)) as M1.
  assert (D2 : a / 65536 = 256 * (a / 16777216) + (a mod 16777216) / 65536).
  { rewrite D1 at 1. replace (16777216 * (a / 16777216)) with ((256 * (a / 16777216)) * 65536) by lia.
    rewrite Z.div_add_l by lia. reflexivity. }
  assert (Q : 0 <= (a mod 16777216) / 65536 < 256).
  { split; [apply Z.div_pos; lia | apply Z.div_lt_upper_bound; lia]. }
  assert (O2 : (a / 65536) mod 256 = (a mod 16777216) / 65536).
  { rewrite D2. rewrite Z.mul_comm. rewrite Z.add_comm. rewrite Z_mod_plus_full. apply Z.mod_small. auto. }
  rewrite O2.
  pose proof (Z.div_mod (a mod 16777216) 65536 ltac:(lia)) as D3.
  pose proof (Z.mod_pos_bound (a mod 16777216) 65536 ltac:(lia)) as M3.
  set (o1 := a / 16777216) in *. set (o2 := a mod 16777216 / 65536) in *.
  destruct (o1 =? 10) eqn:E1; [lia|].
  destruct ((o1 =? 172) && (16 <=? o2) && (o2 <=? 31)) eqn:E2; [lia|].
  destruct ((o1 =? 192) && (o2 =? 168)) eqn:E3; lia.
Qed.

Lemma is_private_block E s a : inet_ok E -> pton4 E s = Some a ->
  is_private E s = match private_block a with Some _ => true | None => false end.
Proof.
  intros I P. destruct (I s a P) as [R _]. unfold is_private. rewrite P.
  pose proof (private_block_ranges a R). destruct (private_block a); auto.
Qed.

Lemma same_block a b x y : private_block a = Some x -> private_block b = Some y ->
  (x = y <-> octet1 a = octet1 b).
Proof.
  unfold private_block.
  destruct (octet1 a =? 10) eqn:A1; [|destruct ((octet1 a =? 172) && (16 <=? octet2 a) && (octet2 a <=? 31)) eqn:A2;
    [|destruct ((octet1 a =? 192) && (octet2 a =? 168)) eqn:A3; [|discriminate]]];
  (destruct (octet1 b =? 10) eqn:B1; [|destruct ((octet1 b =? 172) && (16 <=? octet2 b) && (octet2 b <=? 31)) eqn:B2;
    [|destruct ((octet1 b =? 192) && (octet2 b =? 168)) eqn:B3; [|discriminate]]]);
  intros X Y; inversion X; inversion Y; subst; lia.
Qed.

Lemma clz_octet a b : 0 <= a < 4294967296 -> 0 <= b < 4294967296 -> a <> b ->
  exists k, clz32 (Z.lxor a b) = Some k /\ (0 <? Z.shiftr k 3) = (octet1 a =? octet1 b).
Proof.
  intros A B N. unfold clz32.
  destruct (Z.lxor a b =? 0) eqn:X.
  { apply Z.eqb_eq in X. apply Z.lxor_eq in X. contradiction. }
  apply Z.eqb_neq in X. eexists. split; [reflexivity|].
  assert (P : 0 < Z.lxor a b).
  { assert (0 <= Z.lxor a b) by (apply Z.lxor_nonneg; lia). lia. }
  assert (S24 : Z.lxor a b / 16777216 = Z.lxor (octet1 a) (octet1 b)).
  { unfold octet1. change 16777216 with (2 ^ 24). rewrite <- !Z.shiftr_div_pow2 by lia.
    apply Z.shiftr_lxor. }
  rewrite Z.shiftr_div_pow2 by lia. change (2 ^ 3) with 8.
  assert (L31 : Z.log2 (Z.lxor a b) <= 31).
  { assert (Z.log2 (Z.lxor a b) < 32); [|lia]. apply Z.log2_lt_pow2; auto.
    change (2 ^ 32) with 4294967296.
    assert (U : Z.lxor a b / 4294967296 = 0).
    { change 4294967296 with (2 ^ 32). rewrite <- Z.shiftr_div_pow2 by lia. rewrite Z.shiftr_lxor.
      rewrite !Z.shiftr_div_pow2 by lia. change (2 ^ 32) with 4294967296.
      rewrite !Z.div_small by lia. reflexivity. }
    apply Z.div_small_iff in U; lia. }
  destruct (octet1 a =? octet1 b) eqn:O.
  - apply Z.eqb_eq in O. rewrite O, Z.lxor_nilpotent in S24. apply Z.div_small_iff in S24; [|lia].
    assert (Z.log2 (Z.lxor a b) < 24) by (apply Z.log2_lt_pow2; auto; change (2 ^ 24) with 16777216; lia).
    assert (1 <= (31 - Z.log2 (Z.lxor a b)) / 8) by (apply Z.div_le_lower_bound; lia). lia.
  - apply Z.eqb_neq in O.
    assert (24 <= Z.log2 (Z.lxor a b)).
    { apply Z.log2_le_pow2; auto. change (2 ^ 24) with 16777216.
      destruct (Z.le_gt_cases 16777216 (Z.lxor a b)) as [|G]; auto. exfalso.
      rewrite Z.div_small in S24 by lia. symmetry in S24. apply Z.lxor_eq in S24. auto. }
    pose proof (Z.log2_nonneg (Z.lxor a b)).
    rewrite Z.div_small by lia. reflexivity.
Qed.

Lemma loopback_cases s : is_loopback s = true ->
  prefix_of (text "127.0.0.1") s \/ In 58 s.
Proof.
  unfold is_loopback. intros H. apply orb_true_iff in H. destruct H as [H|H].
  - left. apply strneq_eq in H. exists (skipn 9 s).
    change (text "127.0.0.1") with (firstn 9 (lit "127.0.0.1")). rewrite <- H. symmetry. apply firstn_skipn.
  - right. apply strneq_eq in H. destruct s as [|x s]; [discriminate|]. cbn in H.
    inversion H. left. reflexivity.
Qed.

Lemma private_not_loopback E s a : inet_ok E -> pton4 E s = Some a -> private_block a <> None ->
  is_loopback s = false.
Proof.
  intros I P B. destruct (I s a P) as [R [C O]]. destruct (is_loopback s) eqn:L; auto. exfalso.
  apply loopback_cases in L. destruct L as [L|L]; [|auto]. specialize (O L).
  apply B. unfold private_block. rewrite O. reflexivity.
Qed.

Lemma outgoing_found E c rip p n : outgoing_node E c rip p n ->
  exists e, find_interface c (n_ip n) = Some e /\ e_node e = Some n.
Proof.
  intros [O [L [[e0 [I0 [T0 N0]]] U]]]. unfold find_interface.
  match goal with |- context [find ?f ?l] => destruct (find f l) as [e|] eqn:Fd end.
  - exists e. split; auto. apply find_some in Fd. destruct Fd as [I T]. apply andb_true_iff in T.
    destruct T as [_ T]. destruct (e_node e) as [n'|] eqn:N; [|discriminate].
    apply strneq_eq in T. rewrite Nat.min_l in T by lia. rewrite (firstn_all (n_ip n)) in T.
    f_equal. apply (U e); auto. exists (skipn (length (n_ip n)) (n_ip n')). rewrite <- T at 1.
    symmetry. apply firstn_skipn.
  - exfalso. pose proof (find_none _ _ Fd _ I0) as Q. cbn beta in Q. rewrite T0, N0 in Q. rewrite flag_iface in Q.
    cbn [andb] in Q. unfold strneq in Q. rewrite streq_refl in Q. discriminate.
Qed.

Lemma reach_unfold E c rip p n : outgoing_node E c rip p n ->
  exists e, find_interface c (n_ip n) = Some e /\ e_node e = Some n /\
  can_be_reached E c rip p =
    (if is_loopback (n_ip n) && is_loopback rip && flag p (Z.land (n_proto n) MASK_IP) then Ok true
     else obind (if is_private E rip && is_private E (n_ip n)
             then obind (count_common_tuples E rip (n_ip n)) (fun k => Ok (0 <? k))
             else Ok false) (fun same =>
      if same then Ok true
      else if (is_private E rip && is_loopback (n_ip n)) || (is_private E (n_ip n) && negb (is_private E rip))
      then
        let want := Z.lor PASSIVE (Z.land MASK_IP p) in
        if flag (n_proto n) want then Ok true
        else if is_private E (n_ip n) && negb false
        then obind (find_main_interface c) (fun m =>
             match m with
             | Some e' => match e_node e' with
                          | Some n' => Ok (flag (n_proto n') want)
                          | None => UB
                          end
             | None => UB
             end)
        else Ok false
      else Ok (negb (is_private E rip) && negb (is_private E (n_ip n))))).
Proof.
  intros O. pose proof O as [O1 _]. destruct (outgoing_found _ _ _ _ _ O) as [e [F N]].
  exists e. split; auto. split; auto. unfold can_be_reached. rewrite O1, F. cbn [obind]. rewrite N.
  reflexivity.
Qed.

Lemma iface_found c ip n :
  (length ip <= 46)%nat -> n_ip n = ip ->
  (exists e, In e (ifaces c) /\ e_type e = 36 /\ e_node e = Some n) ->
  (forall e n', In e (ifaces c) -> e_node e = Some n' -> prefix_of ip (n_ip n') -> n' = n) ->
  exists e, find_interface c ip = Some e /\ e_node e = Some n.
Proof.
  intros L Q [e0 [I0 [T0 N0]]] U. unfold find_interface.
  match goal with |- context [find ?f ?l] => destruct (find f l) as [e|] eqn:Fd end.
  - exists e. split; auto. apply find_some in Fd. destruct Fd as [I T]. apply andb_true_iff in T.
    destruct T as [_ T]. destruct (e_node e) as [n'|] eqn:N; [|discriminate].
    apply strneq_eq in T. rewrite Nat.min_l in T by lia. rewrite (firstn_all ip) in T.
    f_equal. apply (U e); auto. exists (skipn (length ip) (n_ip n')). rewrite <- T at 1.
    symmetry. apply firstn_skipn.
  - exfalso. pose proof (find_none _ _ Fd _ I0) as X. cbn beta in X. rewrite T0, N0 in X. rewrite flag_iface in X.
    cbn [andb] in X. subst ip. unfold strneq in X. rewrite streq_refl in X. discriminate.
Qed.

Lemma main_found c n : main_node c n -> exists e, find_main_interface c = Ok (Some e) /\ e_node e = Some n.
Proof.
  intros [M [L [X U]]]. unfold find_main_interface. rewrite M.
  destruct (iface_found c (n_ip n) n L eq_refl X U) as [e [F N]]. exists e. rewrite F. auto.
Qed.

Definition decide (E : env) (n m : node) (rip : str) (p : Z) : outcome bool :=
  if is_loopback (n_ip n) && is_loopback rip && flag p (Z.land (n_proto n) MASK_IP) then Ok true
  else obind (if is_private E rip && is_private E (n_ip n)
              then obind (count_common_tuples E rip (n_ip n)) (fun k => Ok (0 <? k))
              else Ok false) (fun same =>
       if same then Ok true
       else if (is_private E rip && is_loopback (n_ip n)) || (is_private E (n_ip n) && negb (is_private E rip))
       then let want := Z.lor PASSIVE (Z.land MASK_IP p) in
            if flag (n_proto n) want then Ok true
            else if is_private E (n_ip n) then Ok (flag (n_proto m) want) else Ok false
       else Ok (negb (is_private E rip) && negb (is_private E (n_ip n)))).

Lemma reach_decide E c rip p n m : chosen_node E c rip p n -> main_node c m ->
  can_be_reached E c rip p = decide E n m rip p.
Proof.
  intros C M. destruct (main_found c m M) as [em [Fm Nm]]. destruct C as [O|[Mn [ip [O [L U]]]]].
  - destruct (reach_unfold _ _ _ _ _ O) as [e [_ [_ R]]]. rewrite R. unfold decide. rewrite Fm. cbn [obind].
    rewrite Nm. rewrite andb_true_r. reflexivity.
  - assert (Emn : m = n).
    { destruct M as [M1 [_ [[e0 [I0 [_ N0]]] _]]]. destruct Mn as [M2 [_ [_ U2]]].
      apply (U2 e0); auto. assert (Q : n_ip n = n_ip m) by congruence. rewrite Q. exists []. rewrite app_nil_r. reflexivity. }
    subst m. unfold can_be_reached. rewrite O.
    assert (FN : find_interface c ip = None).
    { unfold find_interface. match goal with |- find ?f ?l = None => destruct (find f l) as [e|] eqn:Fd end; auto. exfalso.
      apply find_some in Fd. destruct Fd as [I T]. apply andb_true_iff in T. destruct T as [_ T].
      destruct (e_node e) as [n'|] eqn:N; [|discriminate]. apply strneq_eq in T. rewrite Nat.min_l in T by lia.
      rewrite (firstn_all ip) in T. apply (U e n'); auto. exists (skipn (length ip) (n_ip n')). rewrite <- T at 1.
      symmetry. apply firstn_skipn. }
    rewrite FN, Fm. cbn [obind]. rewrite Nm. unfold decide. rewrite andb_false_r. cbv zeta.
    destruct (is_loopback (n_ip n) && is_loopback rip && flag p (Z.land (n_proto n) MASK_IP)); auto.
    match goal with |- obind ?x _ = obind ?x _ => destruct x as [same| |]; cbn [obind]; auto end.
    destruct same; auto.
    destruct ((is_private E rip && is_loopback (n_ip n)) || (is_private E (n_ip n) && negb (is_private E rip))); auto.
    destruct (flag (n_proto n) (Z.lor PASSIVE (Z.land MASK_IP p))) eqn:Fl; auto.
    destruct (is_private E (n_ip n)); auto.
Qed.

Lemma is_private_net E s a : inet_ok E -> reads E s a ->
  is_private E s = match private_net a with Some _ => true | None => false end.
Proof.
  intros I R. destruct a as [x|b]; cbn [reads private_net] in *.
  - rewrite (is_private_block E s x) by auto. destruct (private_block x); auto.
  - destruct R as [R4 R6]. unfold is_private. rewrite R4, R6.
    destruct (_ || _ || _); reflexivity.
Qed.

Lemma loopback_text_spec s : is_loopback s = true <-> loopback_text s.
Proof.
  unfold loopback_text, is_loopback. rewrite orb_true_iff.
  assert (G : forall n t, length t = n -> (strneq n s t = true <-> prefix_of t s)).
  { intros n t L. rewrite strneq_eq. rewrite (firstn_all2 t) by lia. split.
    - intros H. exists (skipn n s). rewrite <- H. symmetry. apply firstn_skipn.
    - intros [r ->]. rewrite firstn_app. replace (n - length t)%nat with 0%nat by lia. cbn.
      rewrite app_nil_r. apply firstn_all2. lia. }
  rewrite !G by reflexivity. reflexivity.
Qed.

Lemma private_no_loop E s a : inet_ok E -> inet6_ok E -> reads E s a -> private_net a <> None -> is_loopback s = false.
Proof.
  intros I I6 R P. destruct a as [x|b]; cbn [reads private_net] in *.
  - apply (private_not_loopback E s x); auto. destruct (private_block x); congruence.
  - destruct (is_loopback s) eqn:L; auto. exfalso. apply (proj1 (loopback_text_spec s)) in L.
    destruct R as [_ R]. destruct (I6 _ _ R) as [_ [_ [Z0 N]]]. destruct L as [L|L]; [auto|].
    specialize (Z0 L). rewrite Z0 in P. cbn in P. congruence.
Qed.

Lemma common_pairs_first a b : length a = 16%nat -> length b = 16%nat ->
  (0 <? common_pairs a b) = ((nth 0 a 0 =? nth 0 b 0) && (nth 1 a 0 =? nth 1 b 0)).
Proof.
  intros La Lb. destruct a as [|a0 [|a1 a]]; try discriminate. destruct b as [|b0 [|b1 b]]; try discriminate.
  cbn [common_pairs nth].
  assert (NN : forall n x y, (length x <= n)%nat -> 0 <= common_pairs x y).
  { induction n as [|n IH]; intros x y L.
    - destruct x; cbn in *; [lia|lia].
    - destruct x as [|x0 [|x1 x]]; cbn; try lia. destruct y as [|y0 [|y1 y]]; try lia.
      destruct ((x0 =? y0) && (x1 =? y1)); [|lia]. assert (0 <= common_pairs x y) by (apply IH; cbn in L; lia). lia. }
  pose proof (NN _ a b (Nat.le_refl _)). destruct ((a0 =? b0) && (a1 =? b1)); auto.
  apply Z.ltb_lt. lia.
Qed.

Lemma count_private E s1 s2 a b x y : inet_ok E -> inet6_ok E -> reads E s1 a -> reads E s2 b ->
  private_net a = Some x -> private_net b = Some y -> (forall n, a = V4 n -> b <> V4 n) ->
  exists k, count_common_tuples E s1 s2 = Ok k /\ ((0 <? k) = true <-> x = y).
Proof.
  intros I I6 R1 R2 A B N. unfold count_common_tuples.
  destruct a as [a|a]; destruct b as [b|b]; cbn [reads private_net] in *.
  - destruct (I _ _ R1) as [Ra [Ca _]]. destruct (I _ _ R2) as [Rb [Cb _]].
    rewrite (proj2 (strchr_none 58 s1)), (proj2 (strchr_none 58 s2)) by auto. rewrite R1, R2.
    destruct (private_block a) as [xa|] eqn:Pa; [|discriminate]. destruct (private_block b) as [xb|] eqn:Pb; [|discriminate].
    destruct (clz_octet a b) as [k [K1 K2]]; auto.
    { intros ->. apply (N b); auto. }
    rewrite K1. eexists. split; [reflexivity|]. rewrite K2. pose proof (same_block _ _ _ _ Pa Pb) as SB.
    inversion A; inversion B; subst. rewrite Z.eqb_eq. split.
    + intros Q. f_equal. apply SB. auto.
    + intros Q. apply SB. congruence.
  - destruct (I _ _ R1) as [_ [C _]]. destruct R2 as [_ R2]. destruct (I6 _ _ R2) as [_ [C2 _]].
    rewrite (proj2 (strchr_none 58 s1)) by auto.
    destruct (strchr 58 s2) as [j|] eqn:Q; [|apply (proj1 (strchr_none _ _)) in Q; contradiction].
    exists 0. split; auto. split; [discriminate|]. intros X. exfalso. subst y.
    destruct (private_block a); [|discriminate]. destruct (_ || _) in B; [|discriminate]. congruence.
  - destruct (I _ _ R2) as [_ [C _]]. destruct R1 as [_ R1]. destruct (I6 _ _ R1) as [_ [C2 _]].
    rewrite (proj2 (strchr_none 58 s2)) by auto.
    destruct (strchr 58 s1) as [j|] eqn:Q; [|apply (proj1 (strchr_none _ _)) in Q; contradiction].
    exists 0. split; auto. split; [discriminate|]. intros X. exfalso. subst y.
    destruct (private_block b); [|discriminate]. destruct (_ || _) in A; [|discriminate]. congruence.
  - destruct R1 as [_ R1]. destruct R2 as [_ R2]. destruct (I6 _ _ R1) as [L1 [C1 _]]. destruct (I6 _ _ R2) as [L2 [C2 _]].
    destruct (strchr 58 s1) as [j|] eqn:Q1; [|apply (proj1 (strchr_none _ _)) in Q1; contradiction].
    destruct (strchr 58 s2) as [j2|] eqn:Q2; [|apply (proj1 (strchr_none _ _)) in Q2; contradiction].
    rewrite R1, R2. eexists. split; [reflexivity|]. rewrite common_pairs_first by auto.
    cbv zeta in A, B. destruct (_ || _) in A; [|discriminate]. destruct (_ || _) in B; [|discriminate].
    inversion A; inversion B; subst. rewrite andb_true_iff, !Z.eqb_eq. split.
    + intros [-> ->]. reflexivity.
    + intros Q. inversion Q. auto.
Qed.

Lemma decide_private E n m rip p a b x y : inet_ok E -> inet6_ok E -> reads E (n_ip n) a -> reads E rip b ->
  private_net a = Some x -> private_net b = Some y -> (forall k, a = V4 k -> b <> V4 k) ->
  exists r, decide E n m rip p = Ok r /\ (r = true <-> x = y).
Proof.
  intros I I6 R1 R2 A B N. unfold decide.
  rewrite (private_no_loop E (n_ip n) a) by (auto; congruence). cbn [andb].
  rewrite (is_private_net E (n_ip n) a), (is_private_net E rip b), A, B by auto. cbn [andb negb orb].
  destruct (count_private E rip (n_ip n) b a y x I I6 R2 R1 B A) as [k [K1 K2]].
  { intros j Q1 Q2. apply (N j); auto. }
  rewrite K1. cbn [obind]. destruct (0 <? k).
  - exists true. split; auto. split; auto. intros _. symmetry. apply K2. auto.
  - exists false. split; auto. split; [discriminate|]. intros ->. apply K2. auto.
Qed.

Lemma decide_public E n m rip p a b : inet_ok E -> reads E (n_ip n) a -> reads E rip b ->
  private_net a = None -> private_net b = None -> decide E n m rip p = Ok true.
Proof.
  intros I R1 R2 A B. unfold decide. rewrite (is_private_net E (n_ip n) a), (is_private_net E rip b), A, B by auto.
  cbn. destruct (_ && _); reflexivity.
Qed.

Lemma decide_outward E n m rip p a b : inet_ok E -> inet6_ok E -> reads E (n_ip n) a -> reads E rip b ->
  private_net a <> None -> private_net b = None ->
  decide E n m rip p = Ok (flag (n_proto n) (Z.lor 256 (Z.land 15 p)) || flag (n_proto m) (Z.lor 256 (Z.land 15 p))).
Proof.
  intros I I6 R1 R2 A B. unfold decide. rewrite (private_no_loop E (n_ip n) a) by auto.
  rewrite (is_private_net E (n_ip n) a), (is_private_net E rip b), B by auto.
  destruct (private_net a); [|congruence]. cbn [andb orb negb obind].
  change PASSIVE with 256. change MASK_IP with 15. cbv zeta.
  destruct (flag (n_proto n) (Z.lor 256 (Z.land 15 p))); reflexivity.
Qed.

Lemma decide_inward E n m rip p a b : inet_ok E -> inet6_ok E -> reads E (n_ip n) a -> reads E rip b ->
  private_net a = None -> private_net b <> None ->
  (loopback_text (n_ip n) -> decide E n m rip p = Ok (flag (n_proto n) (Z.lor 256 (Z.land 15 p)))) /\
  (~ loopback_text (n_ip n) -> decide E n m rip p = Ok false).
Proof.
  intros I I6 R1 R2 A B. unfold decide. rewrite (private_no_loop E rip b) by auto. rewrite andb_false_r. cbn [andb].
  rewrite (is_private_net E (n_ip n) a), (is_private_net E rip b), A by auto.
  destruct (private_net b); [|congruence]. cbn [andb orb negb obind].
  change PASSIVE with 256. change MASK_IP with 15. cbv zeta. split; intros L.
  - rewrite (proj2 (loopback_text_spec _) L). cbn [orb]. destruct (flag _ _); reflexivity.
  - destruct (is_loopback (n_ip n)) eqn:Q; [exfalso; apply L; apply loopback_text_spec; auto|]. reflexivity.
Qed.

Lemma decide_same E n m rip p a : inet_ok E -> pton4 E (n_ip n) = Some a -> pton4 E rip = Some a ->
  private_block a <> None -> decide E n m rip p = UB.
Proof.
  intros I Pa Pb Ba. unfold decide.
  rewrite (private_not_loopback E (n_ip n) a) by auto. cbn [andb].
  rewrite (is_private_block E (n_ip n) a), (is_private_block E rip a) by auto.
  destruct (private_block a) as [x|] eqn:A; [|congruence]. cbn [andb].
  unfold count_common_tuples. destruct (I _ _ Pa) as [Ra [Ca _]]. destruct (I _ _ Pb) as [Rb [Cb _]].
  rewrite (proj2 (strchr_none 58 (n_ip n))), (proj2 (strchr_none 58 rip)) by auto. rewrite Pa, Pb.
  unfold clz32. rewrite Z.lxor_nilpotent. reflexivity.
Qed.

(** The concrete parser satisfies the assumptions on inet_pton. *)
Lemma dotted_last s : forall cur acc a,
  (forall v, cur = Some v -> 0 <= v <= 255) ->
  dotted s 3 cur acc = Some a -> exists v, 0 <= v <= 255 /\ a = 256 * acc + v.
Proof.
  induction s as [|c s IH]; intros cur acc a C H; cbn [dotted] in H.
  - destruct cur as [v|]; [|discriminate]. inversion H. eauto.
  - destruct (c =? 46); [destruct cur; discriminate|].
    destruct ((48 <=? c) && (c <=? 57)) eqn:D; [|discriminate].
    destruct cur as [v|].
    + assert (Q : match v with 0 => None | _ => if 10 * v + (c - 48) <=? 255
                   then dotted s 3 (Some (10 * v + (c - 48))) acc else None end = Some a) by exact H.
      specialize (C v eq_refl).
      destruct v; [discriminate| |];
        (match type of Q with (if ?b then _ else _) = _ => destruct b eqn:B end; [|discriminate];
         apply (IH _ _ _) in Q; [auto|]; intros w W; inversion W; lia).
    + apply (IH _ _ _) in H; auto. intros w W; inversion W; lia.
Qed.

Lemma dotted_range s : forall k cur acc a,
  (k <= 3)%nat -> 0 <= acc < 256 ^ Z.of_nat k ->
  (forall v, cur = Some v -> 0 <= v <= 255) ->
  dotted s k cur acc = Some a -> 0 <= a < 4294967296.
Proof.
  induction s as [|c s IH]; intros k cur acc a K A C H; cbn [dotted] in H.
  - destruct cur as [v|]; [|discriminate]. specialize (C v eq_refl).
    destruct k as [|[|[|[|k]]]]; try discriminate. inversion H. cbn in A. lia.
  - destruct (c =? 46).
    { destruct cur as [v|]; [|discriminate]. specialize (C v eq_refl).
      destruct (Nat.ltb k 3) eqn:L; [|discriminate]. apply Nat.ltb_lt in L.
      apply (IH _ _ _ _) in H; auto; [|intros w W; discriminate].
      rewrite Nat2Z.inj_succ, Z.pow_succ_r by lia. lia. }
    destruct ((48 <=? c) && (c <=? 57)) eqn:D; [|discriminate].
    destruct cur as [v|].
    + specialize (C v eq_refl).
      assert (Q : match v with 0 => None | _ => if 10 * v + (c - 48) <=? 255
                   then dotted s k (Some (10 * v + (c - 48))) acc else None end = Some a) by exact H.
      destruct v; [discriminate| |];
        (match type of Q with (if ?b then _ else _) = _ => destruct b eqn:B end; [|discriminate];
         apply (IH _ _ _ _) in Q; auto; intros w W; inversion W; lia).
    + apply (IH _ _ _ _) in H; auto. intros w W; inversion W; lia.
Qed.

Lemma dotted_chars s : forall k cur acc a, dotted s k cur acc = Some a -> ~ In 58 s.
Proof.
  induction s as [|c s IH]; intros k cur acc a H; cbn [dotted] in H; [intros []|].
  intros [->|I]; [discriminate|]. revert I.
  destruct (c =? 46).
  { destruct cur; [|discriminate]. destruct (Nat.ltb k 3); [|discriminate]. eapply IH; eauto. }
  destruct ((48 <=? c) && (c <=? 57)); [|discriminate].
  destruct cur as [v|]; [|eapply IH; eauto].
  assert (Q : match v with 0 => None | _ => if 10 * v + (c - 48) <=? 255
                   then dotted s k (Some (10 * v + (c - 48))) acc else None end = Some a) by exact H.
  destruct v; [discriminate| |];
    (match type of Q with (if ?b then _ else _) = _ => destruct b eqn:B end; [|discriminate]; eapply IH; eauto).
Qed.

Lemma ipv4_text_ok s a : ipv4_text s = Some a ->
  0 <= a < 4294967296 /\ ~ In 58 s /\ (prefix_of (text "127.0.0.1") s -> octet1 a = 127).
Proof.
  intros H. split; [|split].
  - apply (dotted_range s 0%nat None 0 a); [lia | cbn; lia | discriminate | exact H].
  - eapply dotted_chars; eauto.
  - intros [t ->].
    change (ipv4_text (text "127.0.0.1" ++ t)) with (dotted t 3 (Some 1) (256 * (256 * (256 * 0 + 127) + 0) + 0)) in H.
    apply dotted_last in H; [|intros v V; inversion V; lia].
    destruct H as [v [V ->]]. unfold octet1. lia.
Qed.

(** Joining. *)
Lemma create_firstn s : np_dhkey_create_from_hash (firstn 64 s) = np_dhkey_create_from_hash s.
Proof. unfold np_dhkey_create_from_hash. rewrite firstn_firstn. reflexivity. Qed.

Lemma wf_min : wf_key dhkey_min.
Proof. split; [reflexivity | unfold dhkey_min; repeat constructor; unfold is_word; lia]. Qed.

Lemma pinned_key s : pinned s <-> np_dhkey_equal dhkey_min (np_dhkey_create_from_hash s) = false.
Proof.
  split.
  - intros [F N]. rewrite <- create_firstn. apply fingerprint_key; auto.
  - intros H.
    assert (NE : np_dhkey_create_from_hash s <> dhkey_min).
    { intros Q. rewrite Q in H. rewrite (proj2 (equal_spec dhkey_min dhkey_min wf_min wf_min) eq_refl) in H.
      discriminate. }
    assert (F : fingerprint_text (firstn 64 s)).
    { unfold np_dhkey_create_from_hash in NE.
      destruct (Nat.eqb (length (firstn 64 s)) 64) eqn:L; cbn [negb] in NE; [|congruence].
      apply Nat.eqb_eq in L. split; auto.
      match type of NE with context [forallb ?f ?l] => destruct (forallb f l) eqn:FB end;
        cbn [negb] in NE; [|congruence].
      rewrite forallb_forall in FB. apply Forall_forall. intros c I. specialize (FB c I).
      apply hex_hexval. destruct (hexval c); eauto. discriminate. }
    split; auto.
    destruct (Exists_dec (fun c => c <> 48) (firstn 64 s)) as [|N]; auto.
    { intros c. destruct (Z.eq_dec c 48); auto. }
    exfalso. apply NE. rewrite <- create_firstn.
    assert (Z48 : firstn 64 s = repeat 48 64).
    { destruct F as [L _].
      assert (G : forall l, ~ Exists (fun c => c <> 48) l -> l = repeat 48 (length l)).
      { induction l as [|c l IH]; intros X; [reflexivity|]. cbn [length repeat].
        rewrite <- IH by (intros Y; apply X; right; auto).
        destruct (Z.eq_dec c 48); [congruence|]. exfalso. apply X. left. auto. }
      rewrite (G _ N). rewrite L. reflexivity. }
    rewrite Z48. reflexivity.
Qed.

Lemma decode_inv s n : node_decode_from_str s = Ok (Some n) -> (length s <= 255)%nat ->
  exists fpr pr host port p,
    s = address_text fpr pr host port /\ ~ In 58 fpr /\ ~ In 58 pr /\ ~ In 58 port /\ names pr p /\
    n_proto n = p /\ n_ip n = firstn 40 host /\ n_port n = firstn 5 port /\
    (pinned fpr -> n_key n = firstn 64 fpr) /\ (~ pinned fpr -> n_key n = text "*").
Proof.
  unfold node_decode_from_str. intros H L. destruct s as [|x s]; [discriminate|].
  rewrite firstn_all2 in H by lia.
  destruct (node_details (x :: s)) as [[[[fpr pr] host] port]|] eqn:D; [|discriminate].
  apply details_inv in D. destruct D as [D1 [D2 [D3 D4]]].
  destruct (flag (parse_protocol pr) UNKNOWN_PROTO) eqn:F; [discriminate|].
  apply parse_flag in F. apply names_parse in F.
  assert (N : n = node_update (firstn 64 (if np_dhkey_equal dhkey_min (np_dhkey_create_from_hash fpr)
                 then lit "*" else fpr)) (parse_protocol pr) host port) by congruence.
  subst n.
  exists fpr, pr, host, port, (parse_protocol pr). split; auto. split; auto. split; auto. split; auto.
  split; auto. cbn [n_proto n_ip n_port n_key node_update].
  split; auto. split; auto. split; auto. split.
  - intros P. apply pinned_key in P. rewrite P. reflexivity.
  - intros P. destruct (np_dhkey_equal dhkey_min (np_dhkey_create_from_hash fpr)) eqn:Q; [reflexivity|].
    exfalso. apply P. apply pinned_key. auto.
Qed.

Lemma active_not_passive n p : In (n, p) protocols -> flag p PASSIVE = false <-> In (n, p) active_protocols.
Proof.
  unfold protocols, active_protocols. cbn [In]. intros H.
  repeat (destruct H as [H|H]; [inversion H; subst; split; intros Q; try discriminate; auto;
     try (intuition congruence)|]).
  destruct H.
Qed.

Lemma active_proto n p : In (n, p) active_protocols -> In (n, p) protocols.
Proof. unfold protocols, active_protocols. cbn [In]. tauto. Qed.

Lemma strstr_occurs s t : strstr s t = true <-> occurs_in t s.
Proof.
  assert (P : forall t s, prefixb t s = true <-> exists v, s = t ++ v).
  { clear. induction t as [|x t IH]; intros s; cbn.
    - split; eauto.
    - destruct s as [|y s]; [split; [discriminate | intros [v V]; discriminate]|].
      rewrite andb_true_iff, IH, Z.eqb_eq. split.
      + intros [-> [v ->]]. eauto.
      + intros [v V]. inversion V. split; eauto. }
  induction s as [|x s IH]; cbn [strstr].
  - rewrite orb_false_r, P. split.
    + intros [v V]. exists [], v. auto.
    + intros [u [v V]]. destruct u; [|discriminate]. eauto.
  - rewrite orb_true_iff, P, IH. split.
    + intros [[v V]|[u [v V]]]; [exists [], v; auto | exists (x :: u), v; rewrite V; reflexivity].
    + intros [u [v V]]. destruct u as [|y u]; [left; exists v; auto|].
      right. exists u, v. inversion V. reflexivity.
Qed.

Lemma no_lookalike_find c ip port : no_lookalike c ip port ->
  find_by_details c (firstn 63 (ip ++ lit ":" ++ port)) = false.
Proof.
  intros H. destruct (find_by_details c (firstn 63 (ip ++ lit ":" ++ port))) eqn:F; auto.
  unfold find_by_details in F. apply existsb_exists in F. destruct F as [e [I F]].
  apply andb_true_iff in F. destruct F as [F1 F2]. apply andb_true_iff in F1. destruct F1 as [_ F1].
  destruct (e_node e) as [n|] eqn:N; [|discriminate].
  apply andb_true_iff in F2. destruct F2 as [F2 F3].
  exfalso. apply (H e n I); auto.
  - apply orb_true_iff in F1. change key_type_node with 4 in F1. change key_type_interface with 32 in F1.
    destruct F1 as [F1|F1]; apply Z.eqb_eq in F1; auto.
  - apply strstr_occurs in F2. apply strstr_occurs in F3. auto.
Qed.

Lemma join_text E c fpr proto p host port :
  running c = true -> fingerprint_text fpr -> not_all_zero fpr -> In (proto, p) active_protocols ->
  (length host <= 40)%nat -> (length port <= 5)%nat -> ~ In 58 port ->
  let rip := firstn 64 (remote_ip E host p) in
  no_lookalike c rip port ->
  can_be_reached E c rip p = Ok true ->
  np_join E c (Some (address_text fpr proto host port)) =
    Ok (np_ok, c, Some (np_dhkey_create_from_hash fpr, Node fpr p rip port)).
Proof.
  intros R F N A Lh Lp Np rip NL CR. pose proof (active_proto _ _ A) as P.
  pose proof (name_nocolon _ _ P) as [_ [L4 _]]. pose proof F as [L64 FH].
  unfold np_join.
  assert (LA : length (address_text fpr proto host port) = (64 + 1 + 4 + 1 + length host + 1 + length port)%nat).
  { unfold address_text. rewrite !app_length. cbn [length]. lia. }
  rewrite LA. replace (Nat.leb _ 10) with false by (symmetry; apply Nat.leb_gt; lia).
  replace (Nat.leb 500 _) with false by (symmetry; apply Nat.leb_gt; lia).
  rewrite R. cbn [negb]. unfold send_join. rewrite (decode_text _ _ p) by auto. cbn [obind].
  cbn [n_proto n_ip n_port n_key].
  rewrite (proj2 (active_not_passive _ _ P)) by auto.
  fold rip. rewrite no_lookalike_find by auto. rewrite CR. cbn [obind].
  destruct fpr as [|x fpr]; [cbn in L64; lia|].
  assert (x <> 42). { inversion FH; subst. unfold hex_char in *. lia. }
  replace (x =? 42) with false by lia.
  rewrite (firstn_all2 (n := 64)) by lia. rewrite L64. reflexivity.
Qed.

Lemma join_inv E c addr r c1 k n :
  np_join E c (Some addr) = Ok (r, c1, Some (k, n)) -> (length addr <= 255)%nat ->
  exists fpr pr host port p,
    addr = address_text fpr pr host port /\ ~ In 58 fpr /\ ~ In 58 pr /\ ~ In 58 port /\
    In (firstn 4 pr, p) active_protocols /\ n_proto n = p /\
    n_ip n = firstn 64 (remote_ip E (firstn 40 host) p) /\ n_port n = firstn 5 port /\
    (pinned fpr -> k = np_dhkey_create_from_hash fpr /\ n_key n = firstn 64 fpr) /\
    (~ pinned fpr ->
       k = hash E (firstn 254 (address_text (text "*") (firstn 4 pr) (n_ip n) (n_port n))) /\
       n_key n = text "*").
Proof.
  unfold np_join. intros H L255.
  destruct (Nat.leb (length addr) 10); [discriminate|].
  destruct (Nat.leb 500 (length addr)); [discriminate|].
  destruct (negb (running c)); [discriminate|].
  destruct (send_join E c addr) as [[c2 j]| |] eqn:S; cbn [obind] in H; try discriminate.
  inversion H; subst; clear H.
  unfold send_join in S.
  destruct (node_decode_from_str addr) as [d| |] eqn:D; cbn [obind] in S; try discriminate.
  destruct d as [n0|]; [|discriminate].
  destruct (decode_inv _ _ D L255) as [fpr [pr [host [port [p [A1 [A2 [A3 [A4 [A5 [A6 [A7 [A8 [A9 A10]]]]]]]]]]]]]].
  destruct (flag (n_proto n0) PASSIVE) eqn:PA; [discriminate|].
  rewrite A6 in PA.
  assert (AP : In (firstn 4 pr, p) active_protocols) by (apply active_not_passive; auto).
  cbn [n_proto n_ip n_port n_key] in S.
  match type of S with context [find_by_details c ?d] => destruct (find_by_details c d) end; [discriminate|].
  match type of S with obind ?x _ = _ => destruct x as [r1| |]; cbn [obind] in S; try discriminate end.
  match type of S with obind ?x _ = _ => destruct x as [r2| |]; cbn [obind] in S; try discriminate end.
  destruct r2 as [[c3 [|]]|]; try discriminate.
  exists fpr, pr, host, port, p. split; auto. split; auto. split; auto. split; auto. split; auto.
  rewrite A6, A7 in S.
  assert (PS : protocol_string p = firstn 4 pr) by (apply protocol_string_name; auto).
  assert (X : forall fp', pinned fp' -> exists x l, firstn 64 fp' = x :: l /\ x <> 42).
  { intros fp' [[Lf Ff] _]. destruct (firstn 64 fp') as [|x l]; [cbn in Lf; lia|].
    exists x, l. split; auto. inversion Ff; subst. unfold hex_char in *. lia. }
  destruct (np_dhkey_equal dhkey_min (np_dhkey_create_from_hash fpr)) eqn:Z0.
  - assert (NP : ~ pinned fpr) by (intros Q; apply pinned_key in Q; congruence).
    rewrite (A10 NP) in S. cbn [text] in S. change (text "*") with [42] in S. cbn [Z.eqb] in S.
    change (42 =? 42) with true in S. cbv iota in S. inversion S; subst; clear S.
    cbn [n_proto n_ip n_port n_key]. split; auto. split; auto. split; [auto|].
    split; [intros Q; contradiction|]. intros _. split; [|reflexivity].
    rewrite PS. rewrite A8. reflexivity.
  - assert (P : pinned fpr) by (apply pinned_key; auto).
    rewrite (A9 P) in S. destruct (X fpr P) as [x [l [X1 X2]]]. rewrite X1 in S.
    replace (x =? 42) with false in S by lia. rewrite <- X1 in S.
    rewrite firstn_firstn in S. cbn [Nat.min] in S.
    destruct P as [[Lf Ff] NZ]. change (Nat.min 64 64) with 64%nat in S. rewrite Lf in S. cbn [Nat.eqb] in S.
    inversion S; subst; clear S. cbn [n_proto n_ip n_port n_key].
    split; auto. split; auto. split; [auto|]. split.
    + intros _. split; [apply create_firstn|reflexivity].
    + intros Q. exfalso. apply Q. split; [split|]; auto.
Qed.

(** Sockets. *)
Definition from_calls (E : env) (h : list call) (c : ctx) : Prop :=
  forall p ip port, In (p, ip, port) (sockets c) ->
    exists pr host o, In (Listen pr host o) h /\ names pr p /\
      local_ip E (firstn 255 host) p = Some ip /\ port = decimal o /\ flag p PASSIVE = false.

Lemma passive_string p : names (protocol_string (Z.lor p PASSIVE)) 258 \/
  names (protocol_string (Z.lor p PASSIVE)) 260 \/
  forall q, ~ names (protocol_string (Z.lor p PASSIVE)) q \/ flag q PASSIVE = true.
Proof.
  unfold protocol_string.
  assert (PB : Z.land (Z.lor p PASSIVE) PASSIVE = PASSIVE).
  { apply Z.bits_inj'. intros i _. rewrite Z.land_spec, Z.lor_spec.
    destruct (Z.testbit p i), (Z.testbit PASSIVE i); reflexivity. }
  destruct (flag (Z.lor p PASSIVE) (Z.lor PASSIVE IPv4)) eqn:F4; [left; right; right; left; reflexivity|].
  destruct (flag (Z.lor p PASSIVE) (Z.lor PASSIVE IPv6)) eqn:F6;
    [right; left; right; right; right; left; reflexivity|].
  assert (H4 : Z.land (Z.lor p PASSIVE) IPv4 <> IPv4).
  { intros Q. unfold flag in F4. rewrite Z.land_lor_distr_r, PB, Q, Z.eqb_refl in F4. discriminate. }
  assert (H6 : Z.land (Z.lor p PASSIVE) IPv6 <> IPv6).
  { intros Q. unfold flag in F6. rewrite Z.land_lor_distr_r, PB, Q, Z.eqb_refl in F6. discriminate. }
  assert (NO : forall t b, b = IPv4 \/ b = IPv6 -> Z.land t b = 0 -> flag (Z.lor p PASSIVE) (Z.lor t b) = false).
  { intros t b B T. unfold flag. apply Z.eqb_neq. intros Q.
    assert (Z.land (Z.lor p PASSIVE) b = b).
    { assert (E2 : Z.land (Z.land (Z.lor p PASSIVE) (Z.lor t b)) b = Z.land (Z.lor t b) b) by congruence.
      rewrite <- Z.land_assoc in E2. rewrite (Z.land_lor_distr_l t b b), T, Z.land_diag, Z.lor_0_l in E2.
      exact E2. }
    destruct B; subst b; auto. }
  rewrite !NO by (auto; reflexivity).
  right. right. intros q. left. unfold names, protocols. cbn [In]. intros H.
  repeat (destruct H as [H|H]; [inversion H|]). destruct H.
Qed.

Lemma listen_sockets E c pr host port r c1 :
  os_ok E -> wf_key (me c) -> good_port port -> listen_safe E c pr host port = Ok (r, c1) ->
  me c1 = me c /\
  forall s, In s (sockets c1) -> In s (sockets c) \/
    exists p ip, s = (p, ip, port) /\ names pr p /\ local_ip E (firstn 255 host) p = Some ip /\ flag p PASSIVE = false.
Proof.
  intros OS W G H.
  destruct (listen_cases E c pr host port _ OS W G eq_refl)
    as [[Q _]|[p' [ip' [Hn [LI [[m [M [F Q]]]|[F Q]]]]]]]; rewrite H in Q; inversion Q; subst; clear Q; auto.
  split; auto. cbn [sockets]. intros s.
  destruct (flag p' PASSIVE) eqn:PA; cbn [negb andb]; auto.
  destruct (bind_ok E (made c)); auto. intros [<-|I]; auto. right. exists p', ip'. auto.
Qed.

Lemma step_sockets E nk c k c1 h :
  os_ok E -> wf_key nk -> me c = nk ->
  (forall pr h o, k = Listen pr h o -> 0 <= o < 65536) ->
  from_calls E h c -> step E c k = Ok c1 -> me c1 = nk /\ from_calls E (h ++ [k]) c1.
Proof.
  intros OS W M PO F H.
  assert (W' : wf_key (me c)) by congruence.
  assert (Keep : forall s, In s (sockets c) -> let '(p, ip, port) := s in
     exists pr host o, In (Listen pr host o) (h ++ [k]) /\ names pr p /\
      local_ip E (firstn 255 host) p = Some ip /\ port = decimal o /\ flag p PASSIVE = false).
  { intros [[p ip] port] I. destruct (F p ip port I) as [pr [host [o [A B]]]].
    exists pr, host, o. split; auto. apply in_or_app. auto. }
  destruct k as [pr hh o| |a|es]; cbn [step] in H.
  - unfold np_listen in H.
    destruct (listen_safe E c (firstn 5 pr) (firstn 255 hh) (decimal o)) as [[r c2]| |] eqn:L;
      cbn [obind snd] in H; inversion H; subst.
    destruct (listen_sockets _ _ _ _ _ _ _ OS W' (port_decimal _ (PO _ _ _ eq_refl)) L) as [M1 S].
    split; auto. intros p ip port I. destruct (S _ I) as [I2|[p' [ip' [Q [N [LI PA]]]]]].
    + apply (Keep _ I2).
    + inversion Q; subst. exists pr, hh, o. split; [apply in_or_app; right; left; auto|].
      apply (proj1 (names_firstn5 _ _)) in N. rewrite firstn_firstn in LI. change (Nat.min 255 255) with 255%nat in LI.
      split; [auto|]. split; [auto|]. split; auto.
  - unfold np_run in H. destruct (main_ip c) as [m|] eqn:MM.
    + cbn [obind snd] in H. inversion H; subst. split; auto. intros p ip port I. apply (Keep _ I).
    + unfold np_listen in H.
      destruct (listen_safe E c (firstn 5 (protocol_string (Z.lor PASSIVE IPv4)))
               (firstn 255 (lit "localhost")) (decimal 31415)) as [[r c2]| |] eqn:L;
        cbn [obind snd] in H; inversion H; subst.
      destruct (listen_sockets _ _ _ _ _ _ _ OS W' (port_decimal 31415 ltac:(lia)) L) as [M1 S].
      split; auto. cbn [sockets]. intros p ip port I. destruct (S _ I) as [I2|[p' [ip' [Q [N [LI PA]]]]]].
      * apply (Keep _ I2).
      * exfalso. assert (N258 : names (firstn 5 (protocol_string (Z.lor PASSIVE IPv4))) 258)
          by (right; right; left; reflexivity).
        rewrite (names_unique _ _ _ N N258) in PA. discriminate.
  - destruct (np_join E c a) as [[[r c2] j]| |] eqn:J; cbn [obind snd fst] in H; inversion H; subst.
    destruct (join_ctx _ _ _ _ _ _ J) as [-> | [pr [hh [rip [q [L [R PS]]]]]]].
    + split; auto. intros p ip port I. apply (Keep _ I).
    + destruct (listen_sockets _ _ _ _ _ _ _ OS W' port_31415 L) as [M1 S].
      split; auto. intros p ip port I. destruct (S _ I) as [I2|[p' [ip' [Q [N [LI PA]]]]]].
      * apply (Keep _ I2).
      * exfalso. subst pr. destruct (passive_string q) as [N2|[N2|N2]].
        -- rewrite (names_unique _ _ _ N N2) in PA. discriminate.
        -- rewrite (names_unique _ _ _ N N2) in PA. discriminate.
        -- destruct (N2 p'); [contradiction|congruence].
  - inversion H; subst. split; auto. intros p ip port I. apply (Keep _ I).
Qed.

Lemma run_sockets E nk h : forall h0 c c1,
  os_ok E -> wf_key nk -> me c = nk -> ports_ok h -> from_calls E h0 c ->
  run E c h = Ok c1 -> from_calls E (h0 ++ h) c1.
Proof.
  induction h as [|k h IH]; intros h0 c c1 OS W M PO F H; cbn in H.
  - inversion H; subst. rewrite app_nil_r. auto.
  - destruct (step E c k) as [c2| |] eqn:S; cbn [obind] in H; try discriminate.
    destruct (step_sockets E nk c k c2 h0 OS W M) as [M2 F2]; auto.
    + intros pr h' o ->. apply (PO pr h'). left. auto.
    + replace (h0 ++ k :: h) with ((h0 ++ [k]) ++ h) by (rewrite <- app_assoc; reflexivity).
      apply (IH _ c2); auto. intros pr h' o I. apply (PO pr h'). right. auto.
Qed.

Lemma str_fingerprint k : wf_key k -> k <> dhkey_min ->
  fingerprint_text (np_dhkey_str k) /\ not_all_zero (np_dhkey_str k).
Proof.
  intros W N. pose proof (str_length k W) as L.
  assert (F : fingerprint_text (np_dhkey_str k)).
  { split; auto.
    assert (H : Forall Dhkey_Spec.is_lower_hex (np_dhkey_str k))
      by (unfold np_dhkey_str; apply bin2hex_lower; apply key_bytes_byte).
    eapply Forall_impl; [|exact H]. unfold Dhkey_Spec.is_lower_hex, hex_char. intros; lia. }
  split; auto.
  assert (P : pinned (np_dhkey_str k)).
  { apply pinned_key. rewrite str_roundtrip by auto.
    destruct (np_dhkey_equal dhkey_min k) eqn:Q; auto. apply equal_spec in Q; auto using wf_min. congruence. }
  destruct P as [_ P]. rewrite firstn_all2 in P by lia. auto.
Qed.
