From Verif Require Import Base Dhkey_Model Dhkey_Spec Dhkey_Proofs Token_Model Token_Spec.

Section Valid.
  Variable C : crypto.
  Variable A : attr_ops.

  Lemma check_attr_sig_spec t : check_attr_sig C A t = true <-> attributes_signed C A t.
  Proof.
    unfold check_attr_sig, attributes_hash, attributes_signed. destruct (ad_size A (attributes t)) as [n|].
    - split; [intros H; exists n; auto|intros (n' & E & H); injection E as <-; auto].
    - split; [discriminate|intros (n' & E & _); discriminate].
  Qed.
  Lemma check_intent_spec t : check_intent A t = true <-> not_used_up A t.
  Proof.
    unfold check_intent, not_used_up. destruct (ad_get A (attributes t) k_max_threshold) as [mx|], (ad_get A (attributes t) k_msg_threshold) as [ms|];
      try (split; [discriminate|intros (? & ? & ? & ? & ?); discriminate]).
    split.
    - intros H. exists mx, ms. split; auto. split; auto. lia.
    - intros (a & b & Ea & Eb & H). injection Ea as <-. injection Eb as <-.
      assert (0 <= raw_u32 ms) by (destruct ms; cbn; try lia; unfold u32; apply Z.mod_pos_bound; lia). lia.
  Qed.

  (** everything except marks and state *)
  Definition same_content (t t' : token) : Prop :=
    uuid t' = uuid t /\ realm t' = realm t /\ issuer t' = issuer t /\ subject t' = subject t /\ audience t' = audience t /\
    issued_at t' = issued_at t /\ not_before t' = not_before t /\ expires_at t' = expires_at t /\
    attributes t' = attributes t /\ attributes_signature t' = attributes_signature t /\ pk t' = pk t /\ sk t' = sk t /\
    signature t' = signature t /\ ttype t' = ttype t /\ scope t' = scope t /\ private_key_is_set t' = private_key_is_set t.

  Lemma is_valid_full t e now b t' : marks_true C A t -> is_valid C A t e now = (b, t') ->
    (b = true <-> acceptable C A t e now) /\ same_content t t' /\ marks_true C A t' /\
    state t' = (if b then Z.lor (state t) 1 else Z.land (state t) (Z.lnot 1)).
  Proof.
    intros [M1 M2]. unfold is_valid, acceptable. intros E.
    assert (S0 : same_content t t) by (repeat split).
    destruct (flag_cmp (ttype t) e) eqn:Ef; cbn [negb] in E; unfold flag_cmp in Ef.
    2: { injection E as <- <-. split; [split; [discriminate|intros (H & _); lia]|]. repeat split; auto. }
    destruct (Z.ltb_spec (expires_at t) now) as [He|He].
    { injection E as <- <-. split; [split; [discriminate|intros (_ & H & _); lia]|]. repeat split; auto. }
    assert (Hs : (scope_private_available <? scope t) = true <-> scope t >= 3) by (unfold scope_private_available; lia).
    set (sc := scope_private_available <? scope t) in *. clearbody sc.
    (* first signature *)
    assert (H1 : (exists t1, (if sc && negb (sig_ok t) then if verify C (signature t) (get_hash C t) (pk t) then Some (set_flags t true (attr_ok t) (issuer_ok t)) else None else Some t) = Some t1 /\
                same_content t t1 /\ attr_ok t1 = attr_ok t /\ marks_true C A t1 /\ (sc = true -> self_signed C t) /\ state t1 = state t) \/
              ((if sc && negb (sig_ok t) then if verify C (signature t) (get_hash C t) (pk t) then Some (set_flags t true (attr_ok t) (issuer_ok t)) else None else Some t) = None /\
                sc = true /\ ~ self_signed C t)).
    { destruct sc eqn:Esc; cbn [andb]; [destruct (sig_ok t) eqn:Eo; cbn [negb]|].
      - left. exists t. repeat split; auto.
      - unfold self_signed, get_hash. destruct (verify C (signature t) (hash C (hash_input t)) (pk t)) eqn:Ev.
        + left. eexists. split; [reflexivity|]. repeat split; auto.
        + right. split; auto.
      - left. exists t. repeat split; auto; discriminate. }
    destruct H1 as [(t1 & E1 & SC1 & A1 & M1' & SS & ST1)|(E1 & Hsc & Hn)].
    2: { rewrite E1 in E. injection E as <- <-. split; [split; [discriminate|intros (_ & _ & H & _); apply Hs in Hsc; destruct (H Hsc); contradiction]|]. repeat split; auto. }
    rewrite E1 in E. clear E1.
    assert (AS : attributes_signed C A t1 <-> attributes_signed C A t).
    { unfold attributes_signed. destruct SC1 as (_&_&_&_&_&_&_&_&R1&R2&R3&_&R4&_). rewrite R1, R2, R3, R4. tauto. }
    assert (H2 : (exists t2, (if sc && negb (attr_ok t1) then if check_attr_sig C A t1 then Some (set_flags t1 (sig_ok t1) true (issuer_ok t1)) else None else Some t1) = Some t2 /\
                same_content t1 t2 /\ marks_true C A t2 /\ (sc = true -> attributes_signed C A t) /\ state t2 = state t) \/
              ((if sc && negb (attr_ok t1) then if check_attr_sig C A t1 then Some (set_flags t1 (sig_ok t1) true (issuer_ok t1)) else None else Some t1) = None /\
                sc = true /\ ~ attributes_signed C A t)).
    { destruct M1' as [P1 P2]. destruct sc eqn:Esc; cbn [andb]; [destruct (attr_ok t1) eqn:Eo; cbn [negb]|].
      - left. exists t1. split; auto. split; [repeat split|]. split; [split; auto|]. split; [|auto]. intros _. apply AS. auto.
      - destruct (check_attr_sig C A t1) eqn:Ev.
        + left. eexists. split; [reflexivity|]. split; [repeat split|]. apply check_attr_sig_spec in Ev. split; [split; auto|]. split; [|auto]. intros _. apply AS; auto.
        + right. split; auto. split; auto. intros H. apply AS in H. apply check_attr_sig_spec in H. congruence.
      - left. exists t1. split; auto. split; [repeat split|]. split; [split; auto|]. split; [discriminate|auto]. }
    assert (TR : forall x y z, same_content x y -> same_content y z -> same_content x z).
    { unfold same_content. intros x y z Hx Hy. repeat match goal with H : _ /\ _ |- _ => destruct H end. repeat split; congruence. }
    destruct H2 as [(t2 & E2 & SC2 & M2' & AA & ST2)|(E2 & Hsc & Hn)].
    2: { rewrite E2 in E. injection E as <- <-. split; [split; [discriminate|intros (_ & _ & H & _); apply Hs in Hsc; destruct (H Hsc); contradiction]|].
         split; [apply (TR t t1); auto; repeat split|]. split; [destruct M1'; split; auto|]. cbn [state set_state]. rewrite ST1. reflexivity. }
    rewrite E2 in E. clear E2.
    assert (SC : same_content t t2) by (eapply TR; eauto).
    assert (CI : check_intent A t2 = check_intent A t) by (unfold check_intent; destruct SC as (_&_&_&_&_&_&_&_&R1&_); rewrite R1; auto).
    assert (SCs : forall s, same_content t (set_state t2 s)) by (intros s; apply (TR t t2); auto; repeat split).
    rewrite CI in E. destruct (flag_cmp (ttype t) type_message_intent) eqn:Ei, (check_intent A t) eqn:Ec; cbn [andb negb] in E;
      injection E as <- <-; (split; [|split; [apply SCs|split; [destruct M2'; split; auto|cbn [state set_state]; rewrite ST2; reflexivity]]]); unfold flag_cmp in Ei.
    - split; auto. intros _. split; [lia|]. split; [lia|]. split; [rewrite <- Hs; auto|]. intros _. apply check_intent_spec. auto.
    - split; [discriminate|]. intros (_ & _ & _ & H). apply Z.eqb_eq in Ei. apply H in Ei. apply check_intent_spec in Ei. congruence.
    - split; auto. intros _. split; [lia|]. split; [lia|]. split; [rewrite <- Hs; auto|]. intros H. lia.
    - split; auto. intros _. split; [lia|]. split; [lia|]. split; [rewrite <- Hs; auto|]. intros H. lia.
  Qed.
End Valid.

(** strings and ids *)
Lemma until0_app l m : Forall (fun c => c <> 0) l -> until0 (l ++ 0 :: m) = l.
Proof. induction 1 as [|c l H _ IH]; cbn; auto. destruct (Z.eqb_spec c 0); [contradiction|]. f_equal. auto. Qed.
Lemma until0_all l : Forall (fun c => c <> 0) l -> until0 l = l.
Proof. induction 1 as [|c l H _ IH]; cbn; auto. destruct (Z.eqb_spec c 0); [contradiction|]. f_equal. auto. Qed.
Lemma until0_nz l : Forall (fun c => c <> 0) (until0 l).
Proof. induction l as [|c l IH]; cbn; auto. destruct (Z.eqb_spec c 0); auto. Qed.
Lemma until0_length l : (length (until0 l) <= length l)%nat.
Proof. induction l as [|c l IH]; cbn; auto. destruct (c =? 0); cbn; lia. Qed.
Lemma cstr_length n l : (length (cstr n l) <= n)%nat.
Proof. unfold cstr. etransitivity; [apply until0_length|]. rewrite firstn_length. lia. Qed.
Lemma cstr_strncpy n m l : (n <= m)%nat -> cstr m (strncpy n l) = cstr n l.
Proof.
  intros Hm. unfold strncpy. set (c := cstr n l). pose proof (cstr_length n l) as Hl. fold c in Hl.
  assert (N : Forall (fun c => c <> 0) c) by apply until0_nz.
  unfold cstr. destruct (Nat.eq_dec (length c) n) as [E|E].
  - replace (n - length c)%nat with 0%nat by lia. cbn [repeat]. rewrite app_nil_r. rewrite firstn_all2 by lia. apply until0_all; auto.
  - replace (n - length c)%nat with (S (n - length c - 1)) by lia. cbn [repeat].
    rewrite firstn_app. rewrite (firstn_all2 c) by lia. replace (m - length c)%nat with (S (m - length c - 1)) by lia. cbn [firstn]. apply until0_app; auto.
Qed.
Lemma strncpy_length n l : length (strncpy n l) = n.
Proof. unfold strncpy. rewrite app_length, repeat_length. pose proof (cstr_length n l). lia. Qed.
Lemma strncpy_idem n l : strncpy n (strncpy n l) = strncpy n l.
Proof. unfold strncpy at 1. rewrite cstr_strncpy by auto. reflexivity. Qed.

Lemma lower_hex_nz l : Forall is_lower_hex l -> Forall (fun c => c <> 0) l.
Proof. intros H. eapply Forall_impl; [|exact H]. unfold is_lower_hex. intros. lia. Qed.
Lemma hex_nz id : bytes32 id -> Forall (fun c => c <> 0) (bin2hex id).
Proof. intros [_ F]. apply lower_hex_nz, bin2hex_lower, F. Qed.
Lemma hex_len id : bytes32 id -> length (bin2hex id) = 64%nat.
Proof. intros [L _]. rewrite bin2hex_length, L. reflexivity. Qed.

Lemma create_bin2hex id : bytes32 id -> key_bytes (np_dhkey_create_from_hash (bin2hex id)) = id.
Proof.
  intros H. pose proof (hex_len id H) as L. destruct H as [L32 F].
  unfold np_dhkey_create_from_hash. rewrite firstn_all2 by lia. rewrite L. cbn [Nat.eqb negb].
  rewrite bin2hex_xdigit by auto. cbn [negb]. rewrite hex2bin_bin2hex by auto. apply (key_bytes_bytes_key id 8); auto.
Qed.
Lemma create_empty : key_bytes (np_dhkey_create_from_hash []) = zero_id.
Proof. reflexivity. Qed.

Lemma cstr_str_of_id n old id : (65 <= n)%nat -> bytes32 id -> cstr n (str_of_id old id) = if list_eq_dec Z.eq_dec id zero_id then [] else bin2hex id.
Proof.
  intros Hn H. unfold str_of_id, cstr. destruct (list_eq_dec Z.eq_dec id zero_id).
  - destruct n; [lia|]. reflexivity.
  - rewrite firstn_app. rewrite (firstn_all2 (bin2hex id)) by (rewrite (hex_len id H); lia). rewrite (hex_len id H).
    replace (n - 64)%nat with (S (n - 65)) by lia. cbn [app firstn]. apply until0_app, hex_nz, H.
Qed.
Lemma cstr64_str_of_id old id : bytes32 id -> cstr 64 (str_of_id old id) = if list_eq_dec Z.eq_dec id zero_id then [] else bin2hex id.
Proof.
  intros H. unfold str_of_id, cstr. destruct (list_eq_dec Z.eq_dec id zero_id).
  - reflexivity.
  - rewrite firstn_app. rewrite (firstn_all2 (bin2hex id)) by (rewrite (hex_len id H); lia). rewrite (hex_len id H).
    replace (64 - 64)%nat with 0%nat by lia. cbn [firstn]. rewrite app_nil_r. apply until0_all, hex_nz, H.
Qed.
Lemma id_of_str_of_id old id : bytes32 id -> id_of_str (str_of_id old id) = id.
Proof.
  intros H. unfold id_of_str. rewrite cstr64_str_of_id by auto. destruct (list_eq_dec Z.eq_dec id zero_id) as [->|]; [reflexivity|apply create_bin2hex; auto].
Qed.
Lemma cstr_prefix n m buf : (n <= m)%nat -> cstr n buf = firstn n (cstr m buf).
Proof.
  unfold cstr. revert m buf. induction n as [|n IH]; intros m buf H; [reflexivity|].
  destruct m; [lia|]. destruct buf as [|c buf]; [reflexivity|]. cbn [firstn until0]. destruct (c =? 0); [reflexivity|]. cbn [firstn]. f_equal. apply IH. lia.
Qed.
(** a canonical id string survives the way to the user and back *)
Lemma id_string_roundtrip n buf old : (65 <= n)%nat -> id_string n buf -> cstr n (str_of_id old (id_of_str buf)) = cstr n buf /\ bytes32 (id_of_str buf).
Proof.
  intros Hn [H|(id & Hid & Hnz & H)].
  - assert (E : id_of_str buf = zero_id) by (unfold id_of_str; rewrite (cstr_prefix 64 n), H by lia; reflexivity).
    rewrite E. assert (B : bytes32 zero_id) by (split; [reflexivity|repeat constructor; lia]).
    split; auto. rewrite cstr_str_of_id by auto. destruct (list_eq_dec Z.eq_dec zero_id zero_id); [auto|contradiction].
  - assert (E : id_of_str buf = id).
    { unfold id_of_str. rewrite (cstr_prefix 64 n), H by lia. rewrite firstn_all2 by (rewrite hex_len; auto). apply create_bin2hex; auto. }
    rewrite E. split; auto. rewrite cstr_str_of_id by auto. destruct (list_eq_dec Z.eq_dec id zero_id); [contradiction|auto].
Qed.

Lemma le_bytes_length n x : length (le_bytes n x) = n.
Proof. revert x. induction n; intros; cbn; auto. Qed.
Lemma le_bytes_inj n : forall x y, 0 <= x < 256 ^ Z.of_nat n -> 0 <= y < 256 ^ Z.of_nat n -> le_bytes n x = le_bytes n y -> x = y.
Proof.
  induction n as [|n IH]; intros x y Hx Hy E.
  - change (256 ^ Z.of_nat 0) with 1 in *. lia.
  - cbn [le_bytes] in E. injection E as E1 E2.
    rewrite Nat2Z.inj_succ, Z.pow_succ_r in Hx, Hy by lia.
    assert (x / 256 = y / 256).
    { apply IH; auto; split; try (apply Z.div_pos; lia); apply Z.div_lt_upper_bound; lia. }
    rewrite (Z.div_mod x 256), (Z.div_mod y 256) by lia. lia.
Qed.
