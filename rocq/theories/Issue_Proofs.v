From Verif Require Import Base Dhkey_Model Dhkey_Spec Dhkey_Proofs Token_Model Token_Spec Token_Proofs TokenData_Props.
From Verif Require Import Uuid_Model Data_Model Data_Spec Data_Proofs Issue_Model Issue_Spec.
From Coq Require Import String.
Local Open Scope string_scope.
Local Open Scope Z_scope.
Local Open Scope list_scope.
Notation length := List.length.

(** ** Blocks *)
Definition merged (ls l : store) : store := fold_left (fun l e => put (fst e) (snd e) l) ls l.

Lemma needed_cons k v l : bytes_needed ((k, v) :: l) = bytes_needed l + Z.of_nat (length (encode k v)).
Proof. rewrite !needed_flat, flat_cons, app_length. lia. Qed.
Lemma spec_merge_fits n ls : forall l, bytes_needed l + bytes_needed ls - 21 <= n -> spec_merge n ls l = (np_data_ok, merged ls l).
Proof.
  induction ls as [|[k v] ls IH]; intros l F; [reflexivity|]. rewrite needed_cons in F. cbn [spec_merge]. unfold spec_set.
  pose proof (put_room k v l). pose proof (needed_pos ls).
  replace (bytes_needed (put k v l) <=? n) with true by lia. rewrite IH by lia. reflexivity.
Qed.
Lemma merged_room ls : forall l, bytes_needed (merged ls l) <= bytes_needed l + bytes_needed ls - 21.
Proof.
  induction ls as [|[k v] ls IH]; intros l; [change (merged [] l) with l; change (bytes_needed []) with 21; lia|]. rewrite needed_cons. cbn [merged fold_left fst snd].
  specialize (IH (put k v l)). unfold merged in IH. pose proof (put_room k v l). lia.
Qed.
Lemma lookup_merged ls : NoDup (map fst ls) -> forall l k, lookup k (merged ls l) = over (lookup k ls) (lookup k l).
Proof.
  induction ls as [|[q v] ls IH]; intros N l k; [reflexivity|]. cbn [map fst] in N. apply NoDup_cons_iff in N. destruct N as [Q N].
  cbn [merged fold_left fst snd lookup]. change (fold_left _ ls (put q v l)) with (merged ls (put q v l)). rewrite IH by assumption. rewrite lookup_put.
  destruct (list_eq_dec Z.eq_dec q k) as [->|]; [|reflexivity].
  replace (lookup k ls) with (@None datum); [reflexivity|]. symmetry. apply lookup_none. assumption.
Qed.
Lemma attribute_inv n l a k : Inv n l a -> attribute a k = lookup k l.
Proof. intros I. unfold attribute. rewrite (get_inv n l a k I). destruct (lookup k l); reflexivity. Qed.
Lemma size_inv n l a : Inv n l a -> np_get_data_size a = (np_data_ok, bytes_needed l).
Proof. intros I. unfold np_get_data_size. rewrite (inv_header _ _ _ I). reflexivity. Qed.
Lemma size_inv' n l a : Inv n l a -> size a = bytes_needed l.
Proof. intros I. unfold size. rewrite (size_inv n l a I). reflexivity. Qed.

Lemma must_set_ok k v t l : Inv 10240 l (attributes t) -> good_key k -> good_value v -> bytes_needed (put k v l) <= 10240 ->
  exists a, must_set k v t = Done (with_attributes t a) /\ Inv 10240 (put k v l) a.
Proof.
  intros I Gk Gv F. destruct (set_step 10240 l (attributes t) k v I Gk Gv) as [S1 _].
  { pose proof (few_objects (put k v l)). lia. }
  destruct (S1 F) as (a & E & J & _). exists a. unfold must_set. rewrite E. auto.
Qed.
Lemma must_set_full k v t l : Inv 10240 l (attributes t) -> good_key k -> good_value v -> 10240 < bytes_needed (put k v l) -> must_set k v t = Aborts.
Proof.
  intros I Gk Gv F. destruct (set_step 10240 l (attributes t) k v I Gk Gv) as [_ S2].
  { pose proof (few_objects l). pose proof (put_length k v l). pose proof (inv_fits _ _ _ I). lia. }
  unfold must_set. rewrite (S2 F). reflexivity.
Qed.
Lemma merge_any a t l ls : Inv 10240 l (attributes t) -> Inv 10240 ls a ->
  exists a', np_merge_data (attributes t) a = Done (fst (spec_merge 10240 ls l), a') /\ Inv 10240 (snd (spec_merge 10240 ls l)) a'.
Proof.
  intros I J. apply (merge_inv 10240 10240 l ls (attributes t) a (map fst l ++ map fst ls) I J).
  - rewrite app_length, !map_length. pose proof (few_objects l). pose proof (few_objects ls). pose proof (inv_fits _ _ _ I). pose proof (inv_fits _ _ _ J). lia.
  - apply incl_appl, incl_refl.
  - apply incl_appr, incl_refl.
Qed.
Lemma may_merge_ok a t l ls : Inv 10240 l (attributes t) -> Inv 10240 ls a -> bytes_needed l + bytes_needed ls - 21 <= 10240 ->
  exists a', may_merge a t = Done (with_attributes t a') /\ Inv 10240 (merged ls l) a'.
Proof.
  intros I J F. destruct (merge_any a t l ls I J) as (a' & E & K). rewrite (spec_merge_fits 10240 ls l F) in E, K. exists a'. unfold may_merge. rewrite E. auto.
Qed.
Lemma may_merge_any a t l ls : Inv 10240 l (attributes t) -> Inv 10240 ls a ->
  exists a', may_merge a t = Done (with_attributes t a') /\ Inv 10240 (snd (spec_merge 10240 ls l)) a'.
Proof. intros I J. destruct (merge_any a t l ls I J) as (a' & E & K). exists a'. unfold may_merge. rewrite E. auto. Qed.

Lemma good_text s : (length (text s) <= 254)%nat /\ length (text s) <> 24%nat /\ Forall (fun c => 1 <= c <= 255) (text s) -> good_key (text s).
Proof. auto. Qed.
Ltac good_text := apply good_text; split; [vm_compute; lia|split; [vm_compute; lia|vm_compute; repeat constructor; discriminate]].
Lemma gk_mep : good_key (text "mep_type"). Proof. good_text. Qed.
Lemma gk_ack : good_key (text "ack_mode"). Proof. good_text. Qed.
Lemma gk_max : good_key (text "max_threshold"). Proof. good_text. Qed.
Lemma gk_msg : good_key (text "msg_threshold"). Proof. good_text. Qed.
Lemma gk_partner : good_key (text "_np.partner_fp"). Proof. good_text. Qed.
Lemma number_size k z : number z -> Z.of_nat (length (encode k (DUint z))) <= 1 + arg_bytes (Z.of_nat (length k)) + Z.of_nat (length k) + 8.
Proof.
  intros [A B]. rewrite encode_size. replace (if z <? 0 then -1 - z else z) with z by (destruct (Z.ltb_spec z 0); lia).
  assert (arg_bytes z <= 4) by (unfold arg_bytes; repeat match goal with |- context [if ?x then _ else _] => destruct x eqn:?E end; lia). lia.
Qed.

Section Crypto.
  Variable C : crypto.
  Hypothesis Cc : correct_scheme C.

  Lemma fp_bytes t : bytes32 (fingerprint C t).
  Proof. destruct Cc as (_ & _ & _ & H). apply H. Qed.

  Lemma sign_attributes_ok src t l : scope t <= 2 -> Inv 10240 l (attributes t) ->
    sign_attributes C src t = Done (set_attr t (attributes t) (sign C (sk src) (hash C (firstn (Z.to_nat (bytes_needed l)) (attributes t) ++ signature t)))).
  Proof. intros S I. unfold sign_attributes. replace (scope_private_available <? scope t) with false by (unfold scope_private_available; lia). rewrite (size_inv _ _ _ I). reflexivity. Qed.
  Lemma set_partner_ok src fp t l : scope t <= 2 -> bytes32 fp -> Inv 10240 l (attributes t) -> bytes_needed (put (text "_np.partner_fp") (DBin fp) l) <= 10240 ->
    exists a, set_partner C src fp t = Done (set_attr t a (sign C (sk src) (hash C (firstn (Z.to_nat (size a)) a ++ signature t)))) /\
      Inv 10240 (put (text "_np.partner_fp") (DBin fp) l) a.
  Proof.
    intros S [L _] I F. destruct (must_set_ok (text "_np.partner_fp") (DBin fp) t l I gk_partner) as (a & E & J); [cbn; lia|exact F|].
    exists a. split; [|exact J]. unfold set_partner. rewrite E. cbn [rbind]. rewrite (sign_attributes_ok src (with_attributes t a) _ S J).
    rewrite (size_inv' _ _ _ J). reflexivity.
  Qed.
  Lemma partner_size fp : bytes32 fp -> Z.of_nat (length (encode (text "_np.partner_fp") (DBin fp))) = 49.
  Proof. intros [L _]. rewrite encode_size, L. reflexivity. Qed.
  Lemma issuer_size fp b : bytes32 fp -> length b = 96%nat -> Z.of_nat (length (encode (bin2hex fp) (DBin b))) = 164.
  Proof. intros B L. rewrite encode_size, L, (hex_len _ B). reflexivity. Qed.

  (** ** Intents *)
  Lemma cstr_hex n fp : bytes32 fp -> (64 <= n)%nat -> cstr n (strncpy 65 (bin2hex fp)) = bin2hex fp.
  Proof.
    intros B L. assert (E : cstr 65 (bin2hex fp) = bin2hex fp).
    { unfold cstr. rewrite firstn_all2 by (rewrite hex_len; auto; lia). apply until0_all, hex_nz; auto. }
    unfold strncpy. rewrite E, (hex_len _ B). change (65 - 64)%nat with 1%nat. cbn [repeat]. unfold cstr.
    destruct (Nat.eq_dec n 64) as [->|N].
    - rewrite firstn_app, (hex_len _ B), Nat.sub_diag, firstn_O, app_nil_r, firstn_all2 by (rewrite hex_len; auto). apply until0_all, hex_nz; auto.
    - rewrite firstn_all2 by (rewrite app_length, (hex_len _ B); cbn; lia). apply until0_app, hex_nz; auto.
  Qed.

  (** the store of an intent before the attributes of the application *)
  Definition base_store (fp pubsig : list Z) (ch : channel) : store :=
    put (text "msg_threshold") (DUint 0) (put (text "max_threshold") (DUint (ch_max ch)) (put (text "ack_mode") (DUint (ch_ack ch))
      (put (text "mep_type") (DUint (ch_mep ch)) (put (bin2hex fp) (DBin pubsig) [])))).
  Definition final_store (node fp pubsig : list Z) (ch : channel) (l1 l2 l3 : store) : store :=
    put (text "_np.partner_fp") (DBin node) (merged l3 (merged l2 (merged l1 (base_store fp pubsig ch)))).
  (** the fields of an intent that are signed *)
  Definition intent_core (me : token) (u : list Z) (now till : Z) (ch : channel) : token :=
    mkTok u (strncpy 255 (realm me)) (strncpy 65 (bin2hex (fingerprint C me))) (strncpy 255 (firstn 254 (ch_subject ch)))
      (match ch_audience ch with Some a => bin2hex a ++ skipn 64 (strncpy 255 (audience me)) | None => strncpy 255 (audience me) end)
      (issued_at me) now (if expires_at me <? till then expires_at me else till) [] []
      (pk me) (repeat 0 64) [] 7 16 2 false false false false.
  Definition intent (me : token) (u : list Z) (now till : Z) (ch : channel) (a : list Z) : token :=
    let sg := sign C (sk me) (get_hash C (intent_core me u now till ch)) in
    set_attr (set_sig (intent_core me u now till ch) sg) a (sign C (sk me) (hash C (firstn (Z.to_nat (size a)) a ++ sg))).

  Lemma base_room fp pubsig ch : bytes32 fp -> length pubsig = 96%nat -> number (ch_mep ch) -> number (ch_ack ch) -> number (ch_max ch) ->
    bytes_needed (base_store fp pubsig ch) <= 21 + 164 + 17 + 17 + 22 + 18.
  Proof.
    intros B L M K X. unfold base_store.
    repeat match goal with |- context [bytes_needed (put ?k ?v ?l)] => lazymatch goal with H : bytes_needed (put k v l) <= _ |- _ => fail | _ => pose proof (put_room k v l) end end.
    pose proof (put_room (text "max_threshold") (DUint (ch_max ch)) (put (text "ack_mode") (DUint (ch_ack ch)) (put (text "mep_type") (DUint (ch_mep ch)) (put (bin2hex fp) (DBin pubsig) [])))).
    pose proof (put_room (text "ack_mode") (DUint (ch_ack ch)) (put (text "mep_type") (DUint (ch_mep ch)) (put (bin2hex fp) (DBin pubsig) []))).
    pose proof (put_room (text "mep_type") (DUint (ch_mep ch)) (put (bin2hex fp) (DBin pubsig) [])).
    pose proof (put_room (bin2hex fp) (DBin pubsig) []).
    pose proof (issuer_size fp pubsig B L). change (bytes_needed []) with 21 in *.
    pose proof (number_size (text "mep_type") _ M) as N1. pose proof (number_size (text "ack_mode") _ K) as N2. pose proof (number_size (text "max_threshold") _ X) as N3.
    assert (N4 : Z.of_nat (length (encode (text "msg_threshold") (DUint 0))) = 18) by reflexivity.
    change (1 + arg_bytes (Z.of_nat (length (text "mep_type"))) + Z.of_nat (length (text "mep_type")) + 8) with 17 in N1.
    change (1 + arg_bytes (Z.of_nat (length (text "ack_mode"))) + Z.of_nat (length (text "ack_mode")) + 8) with 17 in N2.
    change (1 + arg_bytes (Z.of_nat (length (text "max_threshold"))) + Z.of_nat (length (text "max_threshold")) + 8) with 22 in N3.
    lia.
  Qed.

  (** up to the attributes of the application *)
  Definition pubsig_of (me : token) (u : list Z) (now till : Z) (ch : channel) : list Z :=
    pk me ++ sign C (sk me) (get_hash C (intent_core me u now till ch)).
  Definition before (me : token) (u : list Z) (now till : Z) (ch : channel) (a s : list Z) : token :=
    set_attr (set_sig (set_state (intent_core me u now till ch) (state me)) (sign C (sk me) (get_hash C (intent_core me u now till ch)))) a s.

  Lemma pubsig_length me u now till ch : own_identity C me -> length (pubsig_of me u now till ch) = 96%nat.
  Proof. intros (_ & _ & K). destruct Cc as (_ & Lp & Ls & _). unfold pubsig_of. rewrite app_length, K, Lp, Ls. reflexivity. Qed.

  Lemma intent_started me nd u now till buf ch cs : own_identity C me -> length buf = Z.to_nat 10240 ->
    exists a s, Inv 10240 (put (bin2hex (fingerprint C me)) (DBin (pubsig_of me u now till ch)) []) a /\
    new_intent C me nd u now till buf ch cs =
      rbind (must_set (text "mep_type") (DUint (ch_mep ch)) (before me u now till ch a s)) (fun t =>
      rbind (must_set (text "ack_mode") (DUint (ch_ack ch)) t) (fun t =>
      rbind (must_set (text "max_threshold") (DUint (ch_max ch)) t) (fun t =>
      rbind (must_set (text "msg_threshold") (DUint 0) t) (fun t =>
      rbind (may_merge (c_intent cs) t) (fun t =>
      rbind (may_merge (c_intent_msg cs) t) (fun t =>
      rbind (may_merge (c_intent_ident cs) t) (fun t =>
      set_partner C me nd (set_state t 7)))))))).
  Proof.
    intros O LB. pose proof (pubsig_length me u now till ch O) as PL. destruct O as (Sc & Pk & Kp).
    destruct (init_step buf 10240 ltac:(lia) ltac:(rewrite LB; lia)) as (b & E & I & _).
    unfold new_intent, derive. replace (scope me <=? scope_private) with true by (rewrite Sc; reflexivity). cbn [negb rbind].
    change attributes_bytes with 10240. rewrite E. cbn [rbind snd].
    set (t := mkTok u _ _ _ _ _ _ _ b _ _ _ _ _ _ _ _ _ _ _).
    assert (Hh : get_hash C t = get_hash C (intent_core me u now till ch)) by reflexivity.
    assert (E1 : sign_token C me t = Done (before me u now till ch b (sign C (sk me) (hash C (firstn (Z.to_nat 21) b ++ sign C (sk me) (get_hash C (intent_core me u now till ch))))))).
    { unfold sign_token. change (scope_private_available <? scope t) with false. cbv iota.
      rewrite (sign_attributes_ok me (set_sig t (sign C (sk me) (get_hash C t))) [] ltac:(cbn; unfold scope_private_available; lia) I).
      change (bytes_needed []) with 21. rewrite Hh. reflexivity. }
    rewrite E1. cbn [rbind].
    set (s := sign C (sk me) (hash C _)). clearbody s. clear E1.
    assert (E2 : exists a, sign_as_issuer C me (before me u now till ch b s) = Done (before me u now till ch a s) /\
       Inv 10240 (put (bin2hex (fingerprint C me)) (DBin (pubsig_of me u now till ch)) []) a).
    { unfold sign_as_issuer. rewrite Pk. cbn [negb].
      change (issuer (before me u now till ch b s)) with (strncpy 65 (bin2hex (fingerprint C me))).
      pose proof (fp_bytes me) as B. rewrite (cstr_hex 64) by (auto; lia).
      assert (E64 : cstr 64 (bin2hex (fingerprint C me)) = bin2hex (fingerprint C me)).
      { unfold cstr. rewrite firstn_all2 by (rewrite hex_len; auto). apply until0_all, hex_nz; auto. }
      rewrite E64. destruct (list_eq_dec Z.eq_dec _ _) as [_|X]; [|contradiction]. cbn [negb].
      change (get_hash C (before me u now till ch b s)) with (get_hash C (intent_core me u now till ch)).
      change (pk me ++ sign C (sk me) (get_hash C (intent_core me u now till ch))) with (pubsig_of me u now till ch).
      change (attributes (before me u now till ch b s)) with b.
      destruct (set_step 10240 [] b (bin2hex (fingerprint C me)) (DBin (pubsig_of me u now till ch)) I (hex_key _ B) ltac:(cbn; lia) ltac:(cbn; lia)) as [S1 _].
      destruct S1 as (a & Ea & J & _).
      { pose proof (put_room (bin2hex (fingerprint C me)) (DBin (pubsig_of me u now till ch)) []). rewrite (issuer_size _ _ B PL) in H. change (bytes_needed []) with 21 in H. lia. }
      exists a. rewrite Ea. split; [reflexivity|exact J]. }
    destruct E2 as (a & E2 & J). rewrite E2. cbn [rbind]. exists a, s. split; [exact J|]. reflexivity.
  Qed.

  Lemma before_with me u now till ch a s a' : with_attributes (before me u now till ch a s) a' = before me u now till ch a' s.
  Proof. reflexivity. Qed.

  Lemma intent_made me nd u now till buf ch cs l1 l2 l3 : own_identity C me -> length buf = Z.to_nat 10240 -> bytes32 nd ->
    number (ch_mep ch) -> number (ch_ack ch) -> number (ch_max ch) ->
    Inv 10240 l1 (c_intent cs) -> Inv 10240 l2 (c_intent_msg cs) -> Inv 10240 l3 (c_intent_ident cs) ->
    bytes_needed l1 + bytes_needed l2 + bytes_needed l3 - 63 + 308 <= 10240 ->
    exists a, new_intent C me nd u now till buf ch cs = Done (intent me u now till ch a) /\
      Inv 10240 (final_store nd (fingerprint C me) (pubsig_of me u now till ch) ch l1 l2 l3) a.
  Proof.
    intros O LB BN M K X I1 I2 I3 Room.
    destruct (intent_started me nd u now till buf ch cs O LB) as (a & s & J & E). rewrite E. clear E.
    pose proof (pubsig_length me u now till ch O) as PL. pose proof (fp_bytes me) as B.
    pose proof (base_room _ _ ch B PL M K X) as BR. unfold base_store in BR.
    pose proof (needed_pos l1). pose proof (needed_pos l2). pose proof (needed_pos l3).
    assert (R0 := put_room (bin2hex (fingerprint C me)) (DBin (pubsig_of me u now till ch)) []). rewrite (issuer_size _ _ B PL) in R0. change (bytes_needed []) with 21 in R0.
    set (s0 := put (bin2hex (fingerprint C me)) (DBin (pubsig_of me u now till ch)) []) in *.
    pose proof (number_size (text "mep_type") _ M) as N1. pose proof (number_size (text "ack_mode") _ K) as N2. pose proof (number_size (text "max_threshold") _ X) as N3.
    assert (N4 : Z.of_nat (length (encode (text "msg_threshold") (DUint 0))) = 18) by reflexivity.
    change (1 + arg_bytes (Z.of_nat (length (text "mep_type"))) + Z.of_nat (length (text "mep_type")) + 8) with 17 in N1.
    change (1 + arg_bytes (Z.of_nat (length (text "ack_mode"))) + Z.of_nat (length (text "ack_mode")) + 8) with 17 in N2.
    change (1 + arg_bytes (Z.of_nat (length (text "max_threshold"))) + Z.of_nat (length (text "max_threshold")) + 8) with 22 in N3.
    assert (R1 := put_room (text "mep_type") (DUint (ch_mep ch)) s0). set (s1 := put (text "mep_type") (DUint (ch_mep ch)) s0) in *.
    assert (R2 := put_room (text "ack_mode") (DUint (ch_ack ch)) s1). set (s2 := put (text "ack_mode") (DUint (ch_ack ch)) s1) in *.
    assert (R3 := put_room (text "max_threshold") (DUint (ch_max ch)) s2). set (s3 := put (text "max_threshold") (DUint (ch_max ch)) s2) in *.
    assert (R4 := put_room (text "msg_threshold") (DUint 0) s3). set (s4 := put (text "msg_threshold") (DUint 0) s3) in *.
    destruct (must_set_ok (text "mep_type") (DUint (ch_mep ch)) (before me u now till ch a s) s0 J gk_mep M) as (a1 & E1 & J1); [fold s1; lia|]. rewrite E1. cbn [rbind]. rewrite before_with.
    destruct (must_set_ok (text "ack_mode") (DUint (ch_ack ch)) (before me u now till ch a1 s) s1 J1 gk_ack K) as (a2 & E2 & J2); [fold s2; lia|]. rewrite E2. cbn [rbind]. rewrite before_with.
    destruct (must_set_ok (text "max_threshold") (DUint (ch_max ch)) (before me u now till ch a2 s) s2 J2 gk_max X) as (a3 & E3 & J3); [fold s3; lia|]. rewrite E3. cbn [rbind]. rewrite before_with.
    destruct (must_set_ok (text "msg_threshold") (DUint 0) (before me u now till ch a3 s) s3 J3 gk_msg) as (a4 & E4 & J4); [cbn; lia|fold s4; lia|]. rewrite E4. cbn [rbind]. rewrite before_with.
    fold s4 in J4.
    pose proof (merged_room l1 s4). pose proof (merged_room l2 (merged l1 s4)). pose proof (merged_room l3 (merged l2 (merged l1 s4))).
    destruct (may_merge_ok (c_intent cs) (before me u now till ch a4 s) s4 l1 J4 I1) as (a5 & E5 & J5); [lia|]. rewrite E5. cbn [rbind]. rewrite before_with.
    destruct (may_merge_ok (c_intent_msg cs) (before me u now till ch a5 s) _ l2 J5 I2) as (a6 & E6 & J6); [lia|]. rewrite E6. cbn [rbind]. rewrite before_with.
    destruct (may_merge_ok (c_intent_ident cs) (before me u now till ch a6 s) _ l3 J6 I3) as (a7 & E7 & J7); [lia|]. rewrite E7. cbn [rbind]. rewrite before_with.
    destruct (set_partner_ok me nd (set_state (before me u now till ch a7 s) 7) _ ltac:(cbn; lia) BN J7) as (a8 & E8 & J8).
    { pose proof (put_room (text "_np.partner_fp") (DBin nd) (merged l3 (merged l2 (merged l1 s4)))) as R8. rewrite (partner_size _ BN) in R8. lia. }
    exists a8. rewrite E8. split; [reflexivity|exact J8].
  Qed.

  (** with whatever attributes fit *)
  Definition fitting (fp pubsig : list Z) (ch : channel) (l1 l2 l3 : store) : store :=
    snd (spec_merge 10240 l3 (snd (spec_merge 10240 l2 (snd (spec_merge 10240 l1 (base_store fp pubsig ch)))))).
  Lemma intent_any me nd u now till buf ch cs l1 l2 l3 : own_identity C me -> length buf = Z.to_nat 10240 ->
    number (ch_mep ch) -> number (ch_ack ch) -> number (ch_max ch) ->
    Inv 10240 l1 (c_intent cs) -> Inv 10240 l2 (c_intent_msg cs) -> Inv 10240 l3 (c_intent_ident cs) ->
    exists a s, new_intent C me nd u now till buf ch cs = set_partner C me nd (set_state (before me u now till ch a s) 7) /\
      Inv 10240 (fitting (fingerprint C me) (pubsig_of me u now till ch) ch l1 l2 l3) a.
  Proof.
    intros O LB M K X I1 I2 I3.
    destruct (intent_started me nd u now till buf ch cs O LB) as (a & s & J & E). rewrite E. clear E.
    pose proof (pubsig_length me u now till ch O) as PL. pose proof (fp_bytes me) as B.
    pose proof (base_room _ _ ch B PL M K X) as BR. unfold base_store in BR.
    pose proof (needed_pos l1). pose proof (needed_pos l2). pose proof (needed_pos l3).
    assert (R0 := put_room (bin2hex (fingerprint C me)) (DBin (pubsig_of me u now till ch)) []). rewrite (issuer_size _ _ B PL) in R0. change (bytes_needed []) with 21 in R0.
    set (s0 := put (bin2hex (fingerprint C me)) (DBin (pubsig_of me u now till ch)) []) in *.
    pose proof (number_size (text "mep_type") _ M) as N1. pose proof (number_size (text "ack_mode") _ K) as N2. pose proof (number_size (text "max_threshold") _ X) as N3.
    assert (N4 : Z.of_nat (length (encode (text "msg_threshold") (DUint 0))) = 18) by reflexivity.
    change (1 + arg_bytes (Z.of_nat (length (text "mep_type"))) + Z.of_nat (length (text "mep_type")) + 8) with 17 in N1.
    change (1 + arg_bytes (Z.of_nat (length (text "ack_mode"))) + Z.of_nat (length (text "ack_mode")) + 8) with 17 in N2.
    change (1 + arg_bytes (Z.of_nat (length (text "max_threshold"))) + Z.of_nat (length (text "max_threshold")) + 8) with 22 in N3.
    assert (R1 := put_room (text "mep_type") (DUint (ch_mep ch)) s0). set (s1 := put (text "mep_type") (DUint (ch_mep ch)) s0) in *.
    assert (R2 := put_room (text "ack_mode") (DUint (ch_ack ch)) s1). set (s2 := put (text "ack_mode") (DUint (ch_ack ch)) s1) in *.
    assert (R3 := put_room (text "max_threshold") (DUint (ch_max ch)) s2). set (s3 := put (text "max_threshold") (DUint (ch_max ch)) s2) in *.
    assert (R4 := put_room (text "msg_threshold") (DUint 0) s3). set (s4 := put (text "msg_threshold") (DUint 0) s3) in *.
    destruct (must_set_ok (text "mep_type") (DUint (ch_mep ch)) (before me u now till ch a s) s0 J gk_mep M) as (a1 & E1 & J1); [fold s1; lia|]. rewrite E1. cbn [rbind]. rewrite before_with.
    destruct (must_set_ok (text "ack_mode") (DUint (ch_ack ch)) (before me u now till ch a1 s) s1 J1 gk_ack K) as (a2 & E2 & J2); [fold s2; lia|]. rewrite E2. cbn [rbind]. rewrite before_with.
    destruct (must_set_ok (text "max_threshold") (DUint (ch_max ch)) (before me u now till ch a2 s) s2 J2 gk_max X) as (a3 & E3 & J3); [fold s3; lia|]. rewrite E3. cbn [rbind]. rewrite before_with.
    destruct (must_set_ok (text "msg_threshold") (DUint 0) (before me u now till ch a3 s) s3 J3 gk_msg) as (a4 & E4 & J4); [cbn; lia|fold s4; lia|]. rewrite E4. cbn [rbind]. rewrite before_with.
    fold s4 in J4.
    destruct (may_merge_any (c_intent cs) (before me u now till ch a4 s) s4 l1 J4 I1) as (a5 & E5 & J5). rewrite E5. cbn [rbind]. rewrite before_with.
    destruct (may_merge_any (c_intent_msg cs) (before me u now till ch a5 s) _ l2 J5 I2) as (a6 & E6 & J6). rewrite E6. cbn [rbind]. rewrite before_with.
    destruct (may_merge_any (c_intent_ident cs) (before me u now till ch a6 s) _ l3 J6 I3) as (a7 & E7 & J7). rewrite E7. cbn [rbind]. rewrite before_with.
    exists a7, s. split; [reflexivity|exact J7].
  Qed.

  Lemma text_neq_hex s fp : bytes32 fp -> length (text s) <> 64%nat -> text s <> bin2hex fp.
  Proof. intros B L E. apply L. rewrite E. apply hex_len. exact B. Qed.

  Lemma base_lookup fp pubsig ch k : bytes32 fp -> lookup k (base_store fp pubsig ch) =
    if list_eq_dec Z.eq_dec k (text "msg_threshold") then Some (DUint 0) else
    if list_eq_dec Z.eq_dec k (text "max_threshold") then Some (DUint (ch_max ch)) else
    if list_eq_dec Z.eq_dec k (text "ack_mode") then Some (DUint (ch_ack ch)) else
    if list_eq_dec Z.eq_dec k (text "mep_type") then Some (DUint (ch_mep ch)) else
    if list_eq_dec Z.eq_dec k (bin2hex fp) then Some (DBin pubsig) else None.
  Proof.
    intros B. unfold base_store. rewrite !lookup_put. cbn [lookup].
    repeat match goal with |- context [list_eq_dec Z.eq_dec ?a k] => destruct (list_eq_dec Z.eq_dec a k) as [<-|] end;
    repeat match goal with |- context [list_eq_dec Z.eq_dec ?a ?b] => destruct (list_eq_dec Z.eq_dec a b); try congruence; try reflexivity end.
  Qed.
  Lemma needed_one k v l : bytes_needed (l ++ [(k, v)]) = bytes_needed l + bytes_needed [(k, v)] - 21.
  Proof. rewrite !needed_flat, flat_app, app_length. lia. Qed.
  Lemma base_least fp pubsig ch : bytes32 fp -> length pubsig = 96%nat -> 247 <= bytes_needed (base_store fp pubsig ch).
  Proof.
    intros B L. unfold base_store.
    assert (NE : forall s, length (text s) <> 64%nat -> bin2hex fp <> text s) by (intros s Ls Q; apply (text_neq_hex s fp B Ls); auto).
    pose proof (NE "mep_type" ltac:(discriminate)). pose proof (NE "ack_mode" ltac:(discriminate)). pose proof (NE "max_threshold" ltac:(discriminate)). pose proof (NE "msg_threshold" ltac:(discriminate)).
    rewrite !put_new; rewrite ?lookup_put;
      repeat match goal with |- context [list_eq_dec Z.eq_dec ?a ?b] => destruct (list_eq_dec Z.eq_dec a b); [try congruence; try discriminate|] end; try reflexivity.
    rewrite !needed_one, !needed_cons. change (bytes_needed []) with 21. rewrite (issuer_size _ _ B L).
    assert (A0 : forall z, 0 <= arg_bytes z) by (intros z; unfold arg_bytes; repeat match goal with |- context [if ?x then _ else _] => destruct x end; lia).
    assert (N : forall k z, 5 + Z.of_nat (length k) <= Z.of_nat (length (encode k (DUint z)))) by (intros k z; rewrite encode_size; pose proof (A0 (Z.of_nat (length k))); pose proof (A0 (if z <? 0 then -1 - z else z)); lia).
    pose proof (N (text "mep_type") (ch_mep ch)) as N1. pose proof (N (text "ack_mode") (ch_ack ch)) as N2. pose proof (N (text "max_threshold") (ch_max ch)) as N3. pose proof (N (text "msg_threshold") 0) as N4.
    change (Z.of_nat (length (text "mep_type"))) with 8 in N1. change (Z.of_nat (length (text "ack_mode"))) with 8 in N2.
    change (Z.of_nat (length (text "max_threshold"))) with 13 in N3. change (Z.of_nat (length (text "msg_threshold"))) with 13 in N4. lia.
  Qed.
End Crypto.

Lemma only_inv a k v : only a k v -> Inv 10240 [(k, v)] a.
Proof.
  intros (memory & empty & Lm & Ei & Gk & Gv & Es). destruct (init_step memory 10240 ltac:(lia) ltac:(rewrite Lm; lia)) as (b1 & E & I1 & _). rewrite Ei in E. injection E as <-.
  destruct (set_step 10240 [] empty k v I1 Gk Gv ltac:(cbn; lia)) as [S1 S2]. destruct (Z_le_gt_dec (bytes_needed (put k v [])) 10240) as [F|F].
  - destruct (S1 F) as (b' & E' & J & _). rewrite Es in E'. injection E' as <-. exact J.
  - rewrite (S2 ltac:(lia)) in Es. discriminate.
Qed.
Lemma empty_inv a : empty_block a -> Inv 10240 [] a /\ user_block a.
Proof.
  intros (memory & Lm & Ei). split.
  - destruct (init_step memory 10240 ltac:(lia) ltac:(rewrite Lm; lia)) as (b1 & E & I1 & _). rewrite Ei in E. injection E as <-. exact I1.
  - exists memory, a, [], []. split; [exact Lm|]. split; [exact Ei|]. split; [constructor|]. split; [unfold few_keys; cbn; lia|reflexivity].
Qed.
Lemma empty_exists : exists a, empty_block a.
Proof. destruct (init_step (repeat 0 (Z.to_nat 10240)) 10240 ltac:(lia) ltac:(rewrite repeat_length; lia)) as (b1 & E & _). exists b1, (repeat 0 (Z.to_nat 10240)). rewrite repeat_length. auto. Qed.
Lemma only_exists k v : good_key k -> good_value v -> bytes_needed [(k, v)] <= 10240 -> exists a, only a k v /\ user_block a.
Proof.
  intros Gk Gv F. destruct empty_exists as (e & m & Lm & Ei). destruct (empty_inv e) as [I _]; [exists m; auto|].
  destruct (set_step 10240 [] e k v I Gk Gv ltac:(cbn; lia)) as [S1 _]. destruct (S1 F) as (b' & E' & J & _). exists b'. split; [exists m, e; auto|].
  exists m, e, [(k, v)], [np_data_ok]. split; [exact Lm|]. split; [exact Ei|]. split; [constructor; [split; assumption|constructor]|].
  split; [unfold few_keys; cbn; lia|]. cbn [writes]. rewrite E'. reflexivity.
Qed.
