(** C36-C39 tokens, C41 importing a token. *)
From Verif Require Import Base Dhkey_Model Dhkey_Spec Dhkey_Proofs Token_Model Token_Spec Token_Proofs.

(** ** C36 *)
(** A token is reported valid exactly if it is acceptable, for every signature scheme, attribute encoding and clock. *)
Theorem C36_valid_iff_acceptable : forall C A t expected now, marks_true C A t ->
  (fst (is_valid C A t expected now) = true <-> acceptable C A t expected now).
Proof. intros C A t e now M. destruct (is_valid C A t e now) as [b t'] eqn:E. cbn [fst]. apply (is_valid_full C A t e now b t' M E). Qed.

(** Checking leaves the content alone, records exactly the verdict in the VALID bit, keeps all other state bits,
    and only marks as verified what does verify. *)
Theorem C36_check_records_verdict : forall C A t expected now b t', marks_true C A t -> is_valid C A t expected now = (b, t') ->
  same_content t t' /\ marks_true C A t' /\ Z.testbit (state t') 0 = b /\ (forall i, 1 <= i -> Z.testbit (state t') i = Z.testbit (state t) i).
Proof.
  intros C A t e now b t' M E. destruct (is_valid_full C A t e now b t' M E) as (_ & SC & M' & ->). split; auto. split; auto. split.
  - destruct b; [rewrite Z.lor_spec|rewrite Z.land_spec, Z.lnot_spec by lia]; change (Z.testbit 1 0) with true; destruct (Z.testbit (state t) 0); auto.
  - intros i Hi. assert (B : Z.testbit 1 i = false) by (apply (Z.bits_above_log2 1); cbn; lia).
    destruct b; [rewrite Z.lor_spec|rewrite Z.land_spec, Z.lnot_spec by lia]; rewrite B; cbn; [apply orb_false_r|apply andb_true_r].
Qed.

(** Any sequence of checks at any clock readings gives, each time, the verdict for the token as first received. *)
Fixpoint checks (C : crypto) (A : attr_ops) (t : token) (l : list (Z * Z)) : list bool :=
  match l with [] => [] | (e, now) :: l' => let '(b, t') := is_valid C A t e now in b :: checks C A t' l' end.
Theorem C36_every_history_of_checks : forall C A l t, sig_ok t = false -> attr_ok t = false ->
  length (checks C A t l) = length l /\
  forall i, (i < length l)%nat -> nth i (checks C A t l) false = true <-> acceptable C A t (fst (nth i l (0, 0))) (snd (nth i l (0, 0))).
Proof.
  intros C A l t H1 H2. assert (M : marks_true C A t) by (split; intros; congruence). clear H1 H2.
  assert (G : forall l t0, marks_true C A t0 -> same_content t t0 -> length (checks C A t0 l) = length l /\
    forall i, (i < length l)%nat -> nth i (checks C A t0 l) false = true <-> acceptable C A t (fst (nth i l (0, 0))) (snd (nth i l (0, 0)))).
  { clear l M. induction l as [|[e now] l IH]; intros t0 M SC; [split; auto; intros i Hi; cbn in Hi; lia|].
    cbn [checks]. destruct (is_valid C A t0 e now) as [b t1] eqn:E.
    destruct (is_valid_full C A t0 e now b t1 M E) as (V & SC1 & M1 & _).
    assert (SC' : same_content t t1).
    { unfold same_content in *. repeat match goal with H : _ /\ _ |- _ => destruct H end. repeat split; congruence. }
    destruct (IH t1 M1 SC') as [L N]. split; [cbn; lia|]. intros [|i] Hi; cbn [nth fst snd].
    - rewrite V. assert (acceptable C A t0 e now <-> acceptable C A t e now); [|tauto].
      unfold acceptable, self_signed, attributes_signed, not_used_up, hash_input.
      destruct SC as (R1&R2&R3&R4&R5&R6&R7&R8&R9&R10&R11&R12&R13&R14&R15&R16). rewrite R1,R2,R3,R4,R5,R6,R7,R8,R9,R10,R11,R13,R14,R15. tauto.
    - apply N. cbn in Hi. lia. }
  apply G; auto. repeat split.
Qed.

(** a toy scheme to exhibit instances: a signature is the key repeated twice; hash is constant *)
Definition toy : crypto := mkCrypto (fun m => repeat (Z.of_nat (length m) mod 256) 32) (fun sk _ => firstn 64 (sk ++ repeat 0 64))
  (fun s _ p => if list_eq_dec Z.eq_dec (firstn 32 s) p then true else false) (fun sk => firstn 32 (sk ++ repeat 0 32)).
Lemma toy_correct : correct_scheme toy.
Proof.
  split; [|split; [|split]].
  - intros sk m. cbn [verify sign pk_of toy]. destruct (list_eq_dec Z.eq_dec _ _) as [|n]; auto. exfalso. apply n.
    rewrite firstn_firstn. change (Nat.min 32 64) with 32%nat.
    rewrite !firstn_app. f_equal. destruct (le_lt_dec 32 (length sk)).
    + replace (32 - length sk)%nat with 0%nat by lia. reflexivity.
    + remember (32 - length sk)%nat as k eqn:Ek. assert (k <= 32)%nat by lia. clear -H. do 33 (destruct k; [reflexivity|]). lia.
  - intros. unfold toy. cbn [pk_of]. rewrite firstn_length, app_length, repeat_length. lia.
  - intros. unfold toy. cbn [sign]. rewrite firstn_length, app_length, repeat_length. lia.
  - intros m. cbn [hash toy]. split; [apply repeat_length|]. apply Forall_forall. intros x Hx. apply repeat_spec in Hx. subst. apply Z.mod_pos_bound. lia.
Qed.
(** attributes with room for exactly one entry: 0 or 1, key, value *)
Definition one_attr : attr_ops := mkAttr (fun a => if hd 9 a <=? 1 then Some 200 else None)
  (fun a k => if hd 9 a =? 1 then if list_eq_dec Z.eq_dec (firstn (length k) (tl a)) k then Some (DBin (skipn (length k) (tl a))) else None else None)
  (fun a k v => if hd 9 a =? 0 then match v with DBin b => Some (1 :: k ++ b) | _ => None end else None).
Lemma one_attr_law : attr_law (fun _ => True) one_attr.
Proof.
  intros a id b a' _ _ _ H. set (k := bin2hex id) in *. cbn in H. destruct (hd 9 a =? 0); [|discriminate]. injection H as <-. split.
  - cbn. rewrite firstn_app, Nat.sub_diag, firstn_all. cbn. rewrite app_nil_r. destruct (list_eq_dec Z.eq_dec k k); [|contradiction].
    rewrite skipn_app, Nat.sub_diag, skipn_all. reflexivity.
  - exists 200. split; auto. unfold attributes_bytes. lia.
Qed.
Definition sample : token :=
  mkTok (repeat 1 16) (repeat 0 255) (repeat 0 65) (strncpy 255 [97;98;99]) (repeat 0 255) 10 10 100 [0] (repeat 5 64) (repeat 5 32) [] (repeat 5 64) 6 type_identity 3 false false false false.
Example valid_sample : fst (is_valid toy one_attr sample type_identity 50) = true /\ fst (is_valid toy one_attr sample type_identity 101) = false /\
  fst (is_valid toy one_attr sample type_node 50) = false /\ fst (is_valid toy one_attr (set_sig sample (repeat 6 64)) type_identity 50) = false.
Proof. vm_compute. auto. Qed.

(** FINDING: the start of the validity period (and the issue date) is never looked at: a token that is valid at
    some time is valid at every earlier time, in particular before its not_before date. *)
Theorem C36_not_before_refuted : forall C A t expected now earlier, fst (is_valid C A t expected now) = true -> earlier <= now ->
  fst (is_valid C A t expected earlier) = true.
Proof.
  intros C A t e now earlier H Hle. revert H. unfold is_valid.
  destruct (negb (flag_cmp (ttype t) e)); auto. destruct (Z.ltb_spec (expires_at t) now); [discriminate|].
  destruct (Z.ltb_spec (expires_at t) earlier); [lia|]. auto.
Qed.
Example not_before_example : fst (is_valid toy one_attr sample type_identity 3) = true /\ 3 < not_before sample.
Proof. vm_compute. auto. Qed.

(** ** A token signed by its owner is accepted by everybody until it expires *)
(** whatever the internal object it is loaded into contained before *)
Lemma imported_hash_input : forall old1 old2 u, bytes32 (u_issuer u) -> bytes32 (u_realm u) -> bytes32 (u_audience u) ->
  hash_input (user4aaatoken old1 u) = hash_input (user4aaatoken old2 u).
Proof.
  intros old1 old2 u H1 H2 H3. unfold hash_input. cbn [uuid realm issuer subject audience pk expires_at issued_at not_before user4aaatoken].
  rewrite !(cstr_str_of_id 255) by (auto; lia). rewrite !(cstr_str_of_id 65) by (auto; lia). reflexivity.
Qed.

Lemma set_signature_result C A t t' : set_signature C A t = Ok t' ->
  signature t' = sign C (sk t) (hash C (hash_input t)) /\ hash_input t' = hash_input t /\
  (exists n, ad_size A (attributes t) = Some n /\ attributes_signature t' = sign C (sk t) (hash C (firstn (Z.to_nat n) (attributes t) ++ signature t'))) /\
  uuid t' = uuid t /\ realm t' = realm t /\ issuer t' = issuer t /\ subject t' = subject t /\ audience t' = audience t /\
  issued_at t' = issued_at t /\ not_before t' = not_before t /\ expires_at t' = expires_at t /\ attributes t' = attributes t /\ pk t' = pk t /\
  sk t' = sk t /\ private_key_is_set t' = private_key_is_set t /\ scope t' = scope t.
Proof.
  unfold set_signature, update_attributes_signature, attributes_hash. destruct (scope_private_available <? scope t) eqn:Es; [discriminate|].
  cbn [scope set_sig attributes]. rewrite Es. destruct (ad_size A (attributes t)) as [n|] eqn:En; cbn [obind]; [|discriminate].
  intros E. injection E as <-. cbn. repeat split. exists n. split; auto.
Qed.
Lemma update_attributes_result C A t t' : update_attributes_signature C A t = Ok t' ->
  signature t' = signature t /\ hash_input t' = hash_input t /\
  (exists n, ad_size A (attributes t) = Some n /\ attributes_signature t' = sign C (sk t) (hash C (firstn (Z.to_nat n) (attributes t) ++ signature t))) /\
  uuid t' = uuid t /\ realm t' = realm t /\ issuer t' = issuer t /\ subject t' = subject t /\ audience t' = audience t /\
  issued_at t' = issued_at t /\ not_before t' = not_before t /\ expires_at t' = expires_at t /\ attributes t' = attributes t /\ pk t' = pk t /\
  sk t' = sk t /\ private_key_is_set t' = private_key_is_set t /\ scope t' = scope t.
Proof.
  unfold update_attributes_signature, attributes_hash. destruct (scope_private_available <? scope t) eqn:Es; [discriminate|].
  destruct (ad_size A (attributes t)) as [n|] eqn:En; cbn [obind]; [|discriminate].
  intros E. injection E as <-. cbn. repeat split. exists n. split; auto.
Qed.

(** np_sign_identity(self_sign): the exported token, loaded by a peer, is acceptable until it expires *)
Theorem C36_self_signed_identity_accepted : forall C A fresh id, correct_scheme C ->
  (forall s, fresh_identity (fresh s) /\ sk (fresh s) = s) ->
  u_public_key id = pk_of C (u_secret_key id) -> forallb (Z.eqb 0) (u_secret_key id) = false ->
  bytes32 (u_issuer id) -> bytes32 (u_realm id) -> bytes32 (u_audience id) ->
  (exists n, ad_size A (u_attributes id) = Some n /\ n <= attributes_bytes) ->
  exists id', np_sign_identity_self C A fresh id = Ok (Some id') /\
    forall peer now, sig_ok peer = false -> attr_ok peer = false -> private_key_is_set peer = false -> Z.land (ttype peer) type_message_intent = 0 ->
      (fst (is_valid C A (user4aaatoken peer id') (ttype peer) now) = true <-> now <= u_expires_at id).
Proof.
  intros C A fresh id (Hs & _) Hf Hpk Hsk H1 H2 H3 (n & Hn & Hle). unfold np_sign_identity_self. rewrite Hsk.
  destruct (Hf (u_secret_key id)) as [(Pk & F1 & F2 & F3) S].
  set (t := user4aaatoken (fresh (u_secret_key id)) id).
  assert (E1 : exists t1, set_signature C A t = Ok t1).
  { unfold set_signature, update_attributes_signature, attributes_hash, t. cbn [scope user4aaatoken set_sig attributes]. rewrite Pk.
    change (scope_private_available <? scope_private) with false. rewrite Hn. cbn. eauto. }
  destruct E1 as (t1 & E1). rewrite E1. cbn [obind].
  destruct (set_signature_result C A t t1 E1) as (Sg & Hi & (n1 & En1 & Sa) & R1&R2&R3&R4&R5&R6&R7&R8&R9&R10&R11&R12&R13).
  assert (E2 : exists t2, update_attributes_signature C A t1 = Ok t2).
  { unfold update_attributes_signature, attributes_hash. rewrite R13, R9. unfold t. cbn [scope user4aaatoken attributes]. rewrite Pk.
    change (scope_private_available <? scope_private) with false. rewrite Hn. cbn. eauto. }
  destruct E2 as (t2 & E2). rewrite E2. cbn [obind].
  destruct (update_attributes_result C A t1 t2 E2) as (Sg2 & Hi2 & (n2 & En2 & Sa2) & Q1&Q2&Q3&Q4&Q5&Q6&Q7&Q8&Q9&Q10&Q11&Q12&Q13).
  eexists. split; [reflexivity|]. intros peer now G1 G2 G3 G4.
  set (id' := aaatoken4user A id t2 true).
  assert (Nn : n2 = n) by (rewrite R9 in En2; unfold t in En2; cbn in En2; congruence). subst n2.
  assert (AT : attributes t2 = u_attributes id) by (rewrite Q9, R9; reflexivity).
  assert (U : u_uuid id' = u_uuid id /\ u_realm id' = u_realm id /\ u_issuer id' = u_issuer id /\ u_audience id' = u_audience id /\
     strncpy 255 (u_subject id') = strncpy 255 (u_subject id) /\ u_issued_at id' = u_issued_at id /\ u_not_before id' = u_not_before id /\ u_expires_at id' = u_expires_at id /\
     u_attributes id' = u_attributes id /\ u_public_key id' = u_public_key id /\ u_signature id' = signature t2 /\ u_attributes_signature id' = attributes_signature t2).
  { unfold id', aaatoken4user. cbn [u_uuid u_realm u_issuer u_audience u_subject u_issued_at u_not_before u_expires_at u_attributes u_public_key u_signature u_attributes_signature].
    rewrite AT, Hn. replace (n <=? attributes_bytes) with true by lia.
    rewrite Q1,Q2,Q3,Q4,Q5,Q6,Q7,Q8,Q10,R1,R2,R3,R4,R5,R6,R7,R8,R10. unfold t. cbn [uuid realm issuer subject audience issued_at not_before expires_at pk user4aaatoken].
    rewrite !id_of_str_of_id by auto. rewrite !strncpy_idem. repeat split. }
  clearbody id'. destruct U as (U1&U2&U3&U4&U5&U6&U7&U8&U9&U10&U11&U12).
  set (p := user4aaatoken peer id').
  assert (HI : hash_input p = hash_input t).
  { unfold t. rewrite <- (imported_hash_input peer (fresh (u_secret_key id)) id) by auto. unfold hash_input, p.
    cbn [uuid realm issuer subject audience pk expires_at issued_at not_before user4aaatoken]. rewrite U1,U2,U3,U4,U5,U6,U7,U8,U10. reflexivity. }
  assert (M : marks_true C A p) by (split; unfold p; cbn; congruence).
  pose proof (C36_valid_iff_acceptable C A p (ttype peer) now M) as V. rewrite V. unfold acceptable.
  assert (SKt : sk t = u_secret_key id) by (unfold t; cbn; exact S).
  assert (SS : self_signed C p).
  { unfold self_signed. rewrite HI. unfold p. cbn [signature pk user4aaatoken]. rewrite U11, U10, Sg2, Sg, Hpk, SKt. apply Hs. }
  assert (SA : attributes_signed C A p).
  { exists n. unfold p. cbn [attributes attributes_signature signature pk user4aaatoken]. rewrite U9, U10, U11, U12. split; auto.
    rewrite Sa2, Sg2, R9, R11, SKt, Hpk. unfold t. cbn [attributes user4aaatoken]. apply Hs. }
  unfold p in *. cbn [ttype expires_at scope user4aaatoken] in *. rewrite U8 in *. split; [tauto|]. intros Hnow.
  split; [apply Z.land_diag|]. split; auto. split; [intros _; split; auto|]. rewrite G4. discriminate.
Qed.
Definition toy_fresh (s : list Z) : token := new_identity_unsigned toy [] (repeat 3 16) [117] s 5 100 [0].
Definition toy_id : user_token := mkUser (repeat 2 16) (strncpy 255 [97]) zero_id zero_id zero_id 5 5 90 (pk_of toy (repeat 8 64)) (repeat 8 64) [] [0] [].
Example self_signed_applies : (forall s, fresh_identity (toy_fresh s) /\ sk (toy_fresh s) = s) /\ u_public_key toy_id = pk_of toy (u_secret_key toy_id) /\
  forallb (Z.eqb 0) (u_secret_key toy_id) = false /\ bytes32 (u_issuer toy_id) /\ (exists n, ad_size one_attr (u_attributes toy_id) = Some n /\ n <= attributes_bytes).
Proof. repeat split; try reflexivity; try (repeat constructor; lia). exists 200. split; [reflexivity|unfold attributes_bytes; lia]. Qed.

(** ** C37 *)
(** What acceptance against an issuer token means: own signatures verify, the issuer's fingerprint is the one named
    in the token, the issuer token is valid and authenticated - and the embedded signature verifies under the
    embedded key. *)
Lemma verify_signature_accepts C A t s t' : sig_ok t = false -> attr_ok t = false -> issuer_ok t = false ->
  verify_signature C A t (Some s) = Ok (true, t') ->
  self_signed C t /\ attributes_signed C A t /\ key_bytes (np_dhkey_create_from_hash (cstr 64 (issuer t))) = fingerprint C s /\
  is_valid_state (state s) = true /\ is_authenticated (state s) = true /\
  exists b, ad_get A (attributes t) (cstr 65 (issuer t)) = Some (DBin b) /\ (96 <= length b)%nat /\
    verify C (firstn 64 (skipn 32 b)) (hash C (hash_input t)) (firstn 32 b) = true.
Proof.
  intros H1 H2 H3. unfold verify_signature. rewrite H1. cbn [negb]. destruct (verify C (signature t) (get_hash C t) (pk t)) eqn:Ev; [|intros E; discriminate].
  cbn [attr_ok set_flags]. rewrite H2. cbn [negb].
  assert (EC : check_attr_sig C A (set_flags t true false (issuer_ok t)) = check_attr_sig C A t) by reflexivity.
  rewrite EC. destruct (check_attr_sig C A t) eqn:Ec; [|intros E; discriminate].
  cbn [issuer_ok set_flags issuer attributes state]. rewrite H3.
  destruct (list_eq_dec Z.eq_dec _ _) as [Ef|]; cbn [negb]; [|intros E; discriminate].
  destruct (is_valid_state (state s)) eqn:E1; cbn [negb orb]; [|intros E; discriminate].
  destruct (is_authenticated (state s)) eqn:E2; cbn [negb]; [|intros E; discriminate].
  destruct (ad_get A (attributes t) (cstr 65 (issuer t))) as [[b|?|?]|] eqn:Eg; try (intros E; discriminate).
  destruct (length b <? 96)%nat eqn:El; [intros E; discriminate|]. apply Nat.ltb_ge in El.
  destruct (verify C (firstn 64 (skipn 32 b)) _ (firstn 32 b)) eqn:Ew; [|intros E; discriminate].
  intros _. split; [exact Ev|]. split; [apply check_attr_sig_spec; auto|]. split; auto. split; auto. split; auto. exists b. split; auto.
Qed.

(** Partial: acceptance implies that the issuer signed only if the embedded key is the issuer's (missing: the code does not compare them). *)
Theorem C37_issuer_signed_partial : forall C A t issuer_tok t',
  sig_ok t = false -> attr_ok t = false -> issuer_ok t = false ->
  verify_signature C A t (Some issuer_tok) = Ok (true, t') ->
  key_bytes (np_dhkey_create_from_hash (cstr 64 (issuer t))) = fingerprint C issuer_tok /\
  is_valid_state (state issuer_tok) = true /\ is_authenticated (state issuer_tok) = true /\
  self_signed C t /\ attributes_signed C A t /\
  exists b, ad_get A (attributes t) (cstr 65 (issuer t)) = Some (DBin b) /\
    (firstn 32 b = pk issuer_tok -> verify C (firstn 64 (skipn 32 b)) (hash C (hash_input t)) (pk issuer_tok) = true).
Proof.
  intros C A t s t' H1 H2 H3 E. destruct (verify_signature_accepts C A t s t' H1 H2 H3 E) as (S1 & S2 & F & V1 & V2 & b & G & _ & W).
  repeat (split; auto). exists b. split; auto. intros <-. auto.
Qed.

(** A token that names an issuer is refused when no issuer token is presented. *)
Theorem C37_named_issuer_required : forall C A t t', verify_signature C A t None = Ok (true, t') -> forallb (Z.eqb 0) (firstn 32 (issuer t)) = true.
Proof.
  intros C A t t'. unfold verify_signature.
  destruct (negb (sig_ok t)) eqn:E1; [destruct (verify C (signature t) (get_hash C t) (pk t)); [|intros E; discriminate]|];
  match goal with |- context [negb (attr_ok ?x)] => destruct (negb (attr_ok x)) end;
  repeat match goal with |- context [if check_attr_sig C A ?x then _ else _] => destruct (check_attr_sig C A x); [|intros E; discriminate] end;
  cbn [issuer set_flags]; destruct (forallb (Z.eqb 0) (firstn 32 (issuer t))); auto; intros E; discriminate.
Qed.

(** Honest use: issuer signs, then the owner signs, then everybody accepts. *)
Theorem C37_honest_issuer_accepted : forall C A P fresh f0 f1 f2 me iss id id1,
  correct_scheme C -> attr_law P A -> P (u_attributes id) ->
  (forall s, fresh_identity (fresh s) /\ sk (fresh s) = s) -> fresh_identity f1 ->
  (* the issuer: its exported token has its fingerprint *)
  private_key_is_set me = true -> pk me = pk_of C (sk me) -> np_token_fingerprint C f2 iss = fingerprint C me -> fingerprint C me <> zero_id ->
  (* the owner's identity names the issuer *)
  u_public_key id = pk_of C (u_secret_key id) -> forallb (Z.eqb 0) (u_secret_key id) = false ->
  u_issuer id = fingerprint C me -> bytes32 (u_realm id) -> bytes32 (u_audience id) ->
  (exists a, ad_set A (u_attributes id) (bin2hex (fingerprint C me)) (DBin (pk me ++ sign C (sk me) (get_hash C (user4aaatoken f0 id)))) = Some a) ->
  np_sign_identity_other C A f0 me id = Ok id1 ->
  exists id2, np_sign_identity_self C A fresh id1 = Ok (Some id2) /\ np_verify_issuer C A f1 f2 id2 iss = Ok true.
Proof.
  intros C A P fresh f0 f1 f2 me iss id id1 (Hs & Lp & Ls & Hh) AL HP Hf Hf1 Pme Kme Fp Fz Hpk Hsk Hiss H2 H3 (a & Ha).
  assert (BF : bytes32 (fingerprint C me)) by (apply Hh).
  unfold np_sign_identity_other, set_issuer_signature. rewrite Pme. cbn [negb issuer user4aaatoken].
  set (t0 := user4aaatoken f0 id) in *.
  rewrite Hiss, cstr64_str_of_id by auto. destruct (list_eq_dec Z.eq_dec (fingerprint C me) zero_id); [contradiction|].
  assert (E64 : cstr 64 (bin2hex (fingerprint C me)) = bin2hex (fingerprint C me)).
  { unfold cstr. rewrite firstn_all2 by (rewrite hex_len; auto). apply until0_all, hex_nz; auto. }
  rewrite E64. destruct (list_eq_dec Z.eq_dec (bin2hex (fingerprint C me)) _); [|contradiction]. cbn [negb].
  change (attributes t0) with (u_attributes id). rewrite Ha. cbn [obind]. intros E. injection E as <-.
  edestruct AL as (Hget & m & Hm & Hmle); [exact HP|exact BF| |exact Ha|]; [rewrite app_length, Kme, Lp, Ls; reflexivity|].
  (* the exported token after the issuer's signature *)
  set (id1 := aaatoken4user A id _ false).
  assert (U : u_uuid id1 = u_uuid id /\ u_realm id1 = u_realm id /\ u_issuer id1 = u_issuer id /\ u_audience id1 = u_audience id /\
     strncpy 255 (u_subject id1) = strncpy 255 (u_subject id) /\ u_issued_at id1 = u_issued_at id /\ u_not_before id1 = u_not_before id /\ u_expires_at id1 = u_expires_at id /\
     u_attributes id1 = a /\ u_public_key id1 = u_public_key id /\ u_secret_key id1 = u_secret_key id).
  { unfold id1, aaatoken4user. cbn [andb u_uuid u_realm u_issuer u_audience u_subject u_issued_at u_not_before u_expires_at u_attributes u_public_key u_secret_key
      uuid realm issuer subject audience issued_at not_before expires_at pk set_attr attributes private_key_is_set]. rewrite Hm.
    replace (m <=? attributes_bytes) with true by lia. unfold t0. cbn [uuid realm issuer subject audience issued_at not_before expires_at pk user4aaatoken].
    rewrite !id_of_str_of_id, !strncpy_idem by (auto; rewrite Hiss; auto). repeat split. }
  clearbody id1. destruct U as (U1&U2&U3&U4&U5&U6&U7&U8&U9&U10&U11).
  unfold np_sign_identity_self. rewrite U11, Hsk. destruct (Hf (u_secret_key id)) as [(Pk & F1 & F2 & F3) S].
  set (t := user4aaatoken (fresh (u_secret_key id)) id1).
  assert (E1 : exists t1, set_signature C A t = Ok t1).
  { unfold set_signature, update_attributes_signature, attributes_hash, t. cbn [scope user4aaatoken set_sig attributes]. rewrite Pk.
    change (scope_private_available <? scope_private) with false. rewrite U9, Hm. cbn. eauto. }
  destruct E1 as (t1 & E1). rewrite E1. cbn [obind].
  destruct (set_signature_result C A t t1 E1) as (Sg & Hi & (n1 & En1 & Sa) & R1&R2&R3&R4&R5&R6&R7&R8&R9&R10&R11&R12&R13).
  assert (E2 : exists t2, update_attributes_signature C A t1 = Ok t2).
  { unfold update_attributes_signature, attributes_hash. rewrite R13, R9. unfold t. cbn [scope user4aaatoken attributes]. rewrite Pk.
    change (scope_private_available <? scope_private) with false. rewrite U9, Hm. cbn. eauto. }
  destruct E2 as (t2 & E2). rewrite E2. cbn [obind].
  destruct (update_attributes_result C A t1 t2 E2) as (Sg2 & Hi2 & (n2 & En2 & Sa2) & Q1&Q2&Q3&Q4&Q5&Q6&Q7&Q8&Q9&Q10&Q11&Q12&Q13).
  eexists. split; [reflexivity|].
  set (id2 := aaatoken4user A id1 t2 true).
  assert (Nn : n2 = m) by (rewrite R9 in En2; unfold t in En2; cbn in En2; rewrite U9 in En2; congruence). subst n2.
  assert (AT : attributes t2 = a) by (rewrite Q9, R9; unfold t; cbn; auto).
  assert (V : u_uuid id2 = u_uuid id /\ u_realm id2 = u_realm id /\ u_issuer id2 = u_issuer id /\ u_audience id2 = u_audience id /\
     strncpy 255 (u_subject id2) = strncpy 255 (u_subject id) /\ u_issued_at id2 = u_issued_at id /\ u_not_before id2 = u_not_before id /\ u_expires_at id2 = u_expires_at id /\
     u_attributes id2 = a /\ u_public_key id2 = u_public_key id /\ u_signature id2 = signature t2 /\ u_attributes_signature id2 = attributes_signature t2).
  { unfold id2, aaatoken4user. cbn [u_uuid u_realm u_issuer u_audience u_subject u_issued_at u_not_before u_expires_at u_attributes u_public_key u_signature u_attributes_signature].
    rewrite AT, Hm. replace (m <=? attributes_bytes) with true by lia.
    rewrite Q1,Q2,Q3,Q4,Q5,Q6,Q7,Q8,Q10,R1,R2,R3,R4,R5,R6,R7,R8,R10. unfold t. cbn [uuid realm issuer subject audience issued_at not_before expires_at pk user4aaatoken].
    rewrite U1,U2,U3,U4,U6,U7,U8,U10. rewrite !id_of_str_of_id by (auto; rewrite Hiss; auto). rewrite !strncpy_idem. rewrite U5. repeat split. }
  clearbody id2. destruct V as (V1&V2&V3&V4&V5&V6&V7&V8&V9&V10&V11&V12).
  assert (HI : forall old, hash_input (user4aaatoken old id2) = hash_input t0).
  { intros old. unfold t0. rewrite <- (imported_hash_input old f0 id) by (auto; rewrite Hiss; auto). unfold hash_input.
    cbn [uuid realm issuer subject audience pk expires_at issued_at not_before user4aaatoken]. rewrite V1,V2,V3,V4,V5,V6,V7,V8,V10. reflexivity. }
  assert (HIt : hash_input t = hash_input t0).
  { unfold t0. rewrite <- (imported_hash_input (fresh (u_secret_key id)) f0 id) by (auto; rewrite Hiss; auto). unfold t, hash_input.
    cbn [uuid realm issuer subject audience pk expires_at issued_at not_before user4aaatoken]. rewrite U1,U2,U3,U4,U5,U6,U7,U8,U10. reflexivity. }
  assert (SKt : sk t = u_secret_key id) by (unfold t; cbn; exact S).
  destruct Hf1 as (_ & G1 & G2 & G3).
  unfold np_verify_issuer, verify_signature. set (p := user4aaatoken f1 id2).
  cbn [sig_ok set_state user4aaatoken]. change (sig_ok p) with (sig_ok f1). rewrite G1. cbn [negb].
  unfold get_hash. change (hash_input (set_state p _)) with (hash_input p). unfold p at 2. rewrite HI.
  cbn [signature pk set_state]. change (signature p) with (u_signature id2). change (pk p) with (u_public_key id2).
  rewrite V10, V11, Sg2, Sg, HIt, SKt, Hpk, Hs.
  cbn [attr_ok set_flags set_state]. change (attr_ok p) with (attr_ok f1). rewrite G2. cbn [negb].
  assert (CA : check_attr_sig C A p = true).
  { apply check_attr_sig_spec. exists m. unfold p. cbn [attributes attributes_signature signature pk user4aaatoken]. rewrite V9,V10,V11,V12. split; auto.
    rewrite Sa2, Sg2, R9, R11, SKt, Hpk. unfold t. cbn [attributes user4aaatoken]. rewrite U9. apply Hs. }
  match goal with |- context [check_attr_sig C A ?x] => change (check_attr_sig C A x) with (check_attr_sig C A p) end. rewrite CA.
  cbn [issuer_ok set_flags set_state issuer attributes state]. change (issuer_ok p) with (issuer_ok f1). rewrite G3.
  change (issuer p) with (str_of_id (issuer f1) (u_issuer id2)). rewrite V3, Hiss.
  rewrite cstr64_str_of_id, cstr_str_of_id by (auto; lia). destruct (list_eq_dec Z.eq_dec (fingerprint C me) zero_id); [contradiction|].
  rewrite create_bin2hex by auto.
  change (fingerprint C (set_state (user4aaatoken f2 iss) _)) with (np_token_fingerprint C f2 iss). rewrite Fp.
  destruct (list_eq_dec Z.eq_dec (fingerprint C me) (fingerprint C me)); [|contradiction]. cbn [negb].
  change (negb (is_valid_state (Z.lor AAA_AUTHENTICATED AAA_VALID)) || negb (is_authenticated (Z.lor AAA_AUTHENTICATED AAA_VALID))) with false. cbv iota.
  change (attributes p) with (u_attributes id2). rewrite V9, Hget.
  assert (Lb : length (pk me ++ sign C (sk me) (get_hash C t0)) = 96%nat) by (rewrite app_length, Kme, Lp, Ls; reflexivity).
  rewrite Lb. change (96 <? 96)%nat with false. cbv iota.
  rewrite skipn_app, (skipn_all2 (pk me)) by (rewrite Kme, Lp; lia). rewrite Kme, Lp. change (32 - 32)%nat with 0%nat. cbn [skipn app].
  rewrite (firstn_all2 (sign C (sk me) (get_hash C t0))) by (rewrite Ls; lia).
  rewrite firstn_app, (firstn_all2 (pk_of C (sk me))) by (rewrite Lp; lia). rewrite Lp. change (32 - 32)%nat with 0%nat. cbn [firstn]. rewrite app_nil_r.
  unfold get_hash. match goal with |- context [hash_input ?x] => lazymatch x with set_flags _ _ _ _ => change (hash_input x) with (hash_input (user4aaatoken f1 id2)) end end.
  rewrite HI, Hs. reflexivity.
Qed.

(** an instance meeting all hypotheses *)
Definition toy_me : token := toy_fresh (repeat 9 64).
Definition toy_me_user : user_token := aaatoken4user one_attr empty_user toy_me false.
Definition toy_owner : user_token :=
  mkUser (repeat 2 16) (strncpy 255 [97]) (fingerprint toy toy_me) zero_id zero_id 5 5 90 (pk_of toy (repeat 8 64)) (repeat 8 64) [] [0] [].
Example honest_example : np_token_fingerprint toy (toy_fresh []) toy_me_user = fingerprint toy toy_me /\ fingerprint toy toy_me <> zero_id /\
  (exists a, ad_set one_attr (u_attributes toy_owner) (bin2hex (fingerprint toy toy_me)) (DBin (pk toy_me ++ sign toy (sk toy_me) (get_hash toy (user4aaatoken (toy_fresh []) toy_owner)))) = Some a) /\
  (exists id1, np_sign_identity_other toy one_attr (toy_fresh []) toy_me toy_owner = Ok id1) /\ private_key_is_set toy_me = true /\ pk toy_me = pk_of toy (sk toy_me).
Proof. split; [vm_compute; reflexivity|]. split; [vm_compute; discriminate|]. split; [eexists; vm_compute; reflexivity|]. split; [eexists; vm_compute; reflexivity|]. split; reflexivity. Qed.

(** FINDING (security): a forged issuer signature is accepted.  From the issuer's public token and a key pair of
    their own an attacker builds a token that names the issuer and that np_verify_issuer accepts; the issuer's
    secret key is not used anywhere. *)
Definition forge (C : crypto) (A : attr_ops) (fp : list Z) (attacker_secret subject uuid attributes : list Z) (exp : Z) : option user_token :=
  let unsigned := mkUser uuid (strncpy 255 subject) fp zero_id zero_id 0 0 exp (pk_of C attacker_secret) [] [] attributes [] in
  let h := hash C (hash_input (user4aaatoken (blank [] 0 0 []) unsigned)) in
  match ad_set A attributes (bin2hex fp) (DBin (pk_of C attacker_secret ++ sign C attacker_secret h)) with
  | Some a =>
      match ad_size A a with
      | Some n =>
          let s := sign C attacker_secret h in
          Some (mkUser uuid (strncpy 255 subject) fp zero_id zero_id 0 0 exp (pk_of C attacker_secret) [] s a
                       (sign C attacker_secret (hash C (firstn (Z.to_nat n) a ++ s))))
      | None => None
      end
  | None => None
  end.
Theorem C37_forged_issuer_accepted_refuted : forall C A P f1 f2 iss attacker_secret subject uuid attributes exp id,
  correct_scheme C -> attr_law P A -> P attributes -> fresh_identity f1 -> np_token_fingerprint C f2 iss <> zero_id ->
  forge C A (np_token_fingerprint C f2 iss) attacker_secret subject uuid attributes exp = Some id ->
  np_verify_issuer C A f1 f2 id iss = Ok true.
Proof.
  intros C A P f1 f2 iss ask subj u at0 exp id (Hs & Lp & Ls & Hh) AL HP (_ & G1 & G2 & G3) Fz. unfold forge.
  set (fp := np_token_fingerprint C f2 iss) in *.
  assert (BF : bytes32 fp) by apply Hh.
  set (un := mkUser _ _ _ _ _ _ _ _ _ _ _ _ _).
  set (h := hash C (hash_input (user4aaatoken (blank [] 0 0 []) un))).
  destruct (ad_set A at0 (bin2hex fp) _) as [a|] eqn:Ha; [|discriminate].
  destruct (ad_size A a) as [n|] eqn:En; [|discriminate]. intros E. injection E as <-.
  edestruct AL as (Hget & _); [exact HP|exact BF| |exact Ha|]; [rewrite app_length, Lp, Ls; reflexivity|].
  match goal with |- np_verify_issuer C A f1 f2 ?x iss = _ => set (id := x) end.
  assert (BZ : bytes32 zero_id) by (split; [reflexivity|repeat constructor; lia]).
  assert (HI : hash_input (user4aaatoken f1 id) = hash_input (user4aaatoken (blank [] 0 0 []) un)).
  { rewrite (imported_hash_input f1 (blank [] 0 0 [])) by auto. reflexivity. }
  unfold np_verify_issuer, verify_signature. set (p := user4aaatoken f1 id) in *.
  cbn [sig_ok set_state user4aaatoken]. change (sig_ok p) with (sig_ok f1). rewrite G1. cbn [negb].
  unfold get_hash. change (hash_input (set_state p _)) with (hash_input p). rewrite HI. fold h.
  cbn [signature pk set_state]. change (signature p) with (sign C ask h). change (pk p) with (pk_of C ask). rewrite Hs.
  cbn [attr_ok set_flags set_state]. change (attr_ok p) with (attr_ok f1). rewrite G2. cbn [negb].
  assert (CA : check_attr_sig C A p = true).
  { apply check_attr_sig_spec. exists n. split; auto. cbn [attributes attributes_signature signature pk p user4aaatoken id u_attributes u_attributes_signature u_signature u_public_key]. apply Hs. }
  match goal with |- context [check_attr_sig C A ?x] => change (check_attr_sig C A x) with (check_attr_sig C A p) end. rewrite CA.
  cbn [issuer_ok set_flags set_state issuer attributes state]. change (issuer_ok p) with (issuer_ok f1). rewrite G3.
  change (issuer p) with (str_of_id (issuer f1) fp).
  rewrite cstr64_str_of_id, cstr_str_of_id by (auto; lia). destruct (list_eq_dec Z.eq_dec fp zero_id); [contradiction|].
  rewrite create_bin2hex by auto.
  change (fingerprint C (set_state (user4aaatoken f2 iss) _)) with fp.
  destruct (list_eq_dec Z.eq_dec fp fp); [|contradiction]. cbn [negb].
  change (negb (is_valid_state (Z.lor AAA_AUTHENTICATED AAA_VALID)) || negb (is_authenticated (Z.lor AAA_AUTHENTICATED AAA_VALID))) with false. cbv iota.
  change (attributes p) with a. rewrite Hget.
  assert (Lb : length (pk_of C ask ++ sign C ask h) = 96%nat) by (rewrite app_length, Lp, Ls; reflexivity).
  rewrite Lb. change (96 <? 96)%nat with false. cbv iota.
  rewrite skipn_app, (skipn_all2 (pk_of C ask)) by (rewrite Lp; lia). rewrite Lp. change (32 - 32)%nat with 0%nat. cbn [skipn app].
  rewrite (firstn_all2 (sign C ask h)) by (rewrite Ls; lia).
  rewrite firstn_app, (firstn_all2 (pk_of C ask)) by (rewrite Lp; lia). rewrite Lp. change (32 - 32)%nat with 0%nat. cbn [firstn]. rewrite app_nil_r.
  match goal with |- context [hash_input ?x] => lazymatch x with set_flags _ _ _ _ => change (hash_input x) with (hash_input p) end end.
  rewrite HI. fold h. rewrite Hs. reflexivity.
Qed.
(** an instance: the attacker's signature does not verify under the issuer's key, yet the token is accepted *)
Definition toy_issuer : user_token := mkUser (repeat 4 16) (strncpy 255 [98]) zero_id zero_id zero_id 5 5 90 (repeat 9 32) [] (repeat 9 64) [0] [].
Example forged_example :
  match forge toy one_attr (np_token_fingerprint toy (toy_fresh []) toy_issuer) (repeat 8 64) [97] (repeat 2 16) [0] 100 with
  | Some id => np_verify_issuer toy one_attr (toy_fresh []) (toy_fresh []) id toy_issuer = Ok true /\
      verify toy (u_signature id) (hash toy []) (u_public_key toy_issuer) = false
  | None => False end /\ fresh_identity (toy_fresh []) /\ np_token_fingerprint toy (toy_fresh []) toy_issuer <> zero_id.
Proof. split; [vm_compute; auto|]. split; [repeat split|]. vm_compute. discriminate. Qed.

(** FINDING: the attribute is used as a pointer to 96 bytes whatever its type and size. *)
Theorem C37_attribute_type_unchecked_refuted : exists t s, ad_get one_attr (attributes t) (cstr 65 (issuer t)) = Some (DBin []) /\
  verify_signature toy one_attr t (Some s) = UB.
Proof.
  exists (mkTok (repeat 1 16) (repeat 0 255) (bin2hex (repeat 71 32) ++ [0]) (repeat 0 255) (repeat 0 255) 0 0 9 (1 :: bin2hex (repeat 71 32)) (repeat 5 64) (repeat 5 32) [] (repeat 5 64) 0 1 3 false false false false).
  exists (mkTok [] [] [] [] [] 0 0 9 [0] [] [] [] (repeat 7 39) 3 1 3 false false false false).
  vm_compute. auto.
Qed.

(** ** C38 *)
Lemma app_eq_len {B} (a b c d : list B) : length a = length c -> a ++ b = c ++ d -> a = c /\ b = d.
Proof. revert c. induction a as [|x a IH]; intros [|y c] L E; cbn in *; try discriminate; auto. injection E as -> E. injection L as L. destruct (IH c L E). subst. auto. Qed.
(** The signed bytes determine every identity field, for tokens whose realm, issuer and audience strings have the same lengths. *)
Theorem C38_signed_bytes_determine_fields : forall t1 t2,
  length (uuid t1) = 16%nat -> length (uuid t2) = 16%nat -> length (pk t1) = 32%nat -> length (pk t2) = 32%nat ->
  (forall t, t = t1 \/ t = t2 -> 0 <= issued_at t < 2 ^ 64 /\ 0 <= not_before t < 2 ^ 64 /\ 0 <= expires_at t < 2 ^ 64) ->
  length (cstr 255 (realm t1)) = length (cstr 255 (realm t2)) -> length (cstr 65 (issuer t1)) = length (cstr 65 (issuer t2)) ->
  length (cstr 255 (audience t1)) = length (cstr 255 (audience t2)) ->
  hash_input t1 = hash_input t2 ->
  uuid t1 = uuid t2 /\ cstr 255 (realm t1) = cstr 255 (realm t2) /\ cstr 65 (issuer t1) = cstr 65 (issuer t2) /\
  cstr 255 (subject t1) = cstr 255 (subject t2) /\ cstr 255 (audience t1) = cstr 255 (audience t2) /\ pk t1 = pk t2 /\
  expires_at t1 = expires_at t2 /\ issued_at t1 = issued_at t2 /\ not_before t1 = not_before t2.
Proof.
  intros t1 t2 U1 U2 P1 P2 T Lr Li La E. unfold hash_input in E.
  pose proof (f_equal (@length Z) E) as LE. rewrite !app_length, !le_bytes_length in LE.
  apply app_eq_len in E; [|lia]. destruct E as [Eu E]. apply app_eq_len in E; [|lia]. destruct E as [Er E].
  apply app_eq_len in E; [|lia]. destruct E as [Ei E]. apply app_eq_len in E; [|lia]. destruct E as [Es E].
  apply app_eq_len in E; [|lia]. destruct E as [Ea E]. apply app_eq_len in E; [|lia]. destruct E as [Ep E].
  apply app_eq_len in E; [|rewrite !le_bytes_length; auto]. destruct E as [Ex E]. apply app_eq_len in E; [|rewrite !le_bytes_length; auto]. destruct E as [Ed En].
  destruct (T t1 (or_introl eq_refl)) as (A1 & A2 & A3). destruct (T t2 (or_intror eq_refl)) as (B1 & B2 & B3).
  change (2 ^ 64) with (256 ^ Z.of_nat 8) in *.
  repeat split; auto; eapply le_bytes_inj; eauto.
Qed.
Example signed_bytes_example : length (uuid sample) = 16%nat /\ length (pk sample) = 32%nat /\ length (cstr 255 (realm sample)) = 0%nat /\ cstr 255 (subject sample) = [97;98;99].
Proof. vm_compute. auto. Qed.

(** FINDING: field boundaries are not part of the signed bytes.  A token of realm X without issuer and a token
    issued by X without realm have the same signed bytes: a signature for one is a signature for the other. *)
Definition with_realm_issuer (t : token) (r i : list Z) : token :=
  mkTok (uuid t) r i (subject t) (audience t) (issued_at t) (not_before t) (expires_at t) (attributes t) (attributes_signature t) (pk t) (sk t) (signature t) (state t) (ttype t) (scope t) (private_key_is_set t) (sig_ok t) (attr_ok t) (issuer_ok t).
Theorem C38_realm_issuer_swap_refuted : forall t id, bytes32 id -> id <> zero_id ->
  let realm_token := with_realm_issuer t (str_of_id (repeat 0 255) id) (repeat 0 65) in
  let issuer_token := with_realm_issuer t (repeat 0 255) (str_of_id (repeat 0 65) id) in
  hash_input realm_token = hash_input issuer_token /\ cstr 65 (issuer realm_token) = [] /\ cstr 65 (issuer issuer_token) = bin2hex id.
Proof.
  intros t id H Hz. cbn zeta. unfold hash_input. cbn [uuid realm issuer subject audience pk expires_at issued_at not_before with_realm_issuer].
  rewrite !cstr_str_of_id by (auto; lia). destruct (list_eq_dec Z.eq_dec id zero_id); [contradiction|].
  change (cstr 65 (repeat 0 65)) with (@nil Z). change (cstr 255 (repeat 0 255)) with (@nil Z). cbn [app]. auto.
Qed.
(** ... in general everything that concatenates to the same bytes is the same to the signature ... *)
Theorem C38_subject_audience_shift_refuted : exists t1 t2, cstr 255 (subject t1) <> cstr 255 (subject t2) /\ cstr 255 (audience t1) <> cstr 255 (audience t2) /\ hash_input t1 = hash_input t2.
Proof.
  exists (mkTok (repeat 1 16) (repeat 0 255) (repeat 0 65) (strncpy 255 [97;98]) (strncpy 255 [99]) 1 1 1 [] [] (repeat 0 32) [] [] 0 1 3 false false false false).
  exists (mkTok (repeat 1 16) (repeat 0 255) (repeat 0 65) (strncpy 255 [97]) (strncpy 255 [98;99]) 1 1 1 [] [] (repeat 0 32) [] [] 0 1 3 false false false false).
  vm_compute. split; [discriminate|]. split; [discriminate|reflexivity].
Qed.
(** ... and the type of the token is not signed at all: a node token can be relabelled as an identity token. *)
Definition with_type (t : token) (ty : Z) : token :=
  mkTok (uuid t) (realm t) (issuer t) (subject t) (audience t) (issued_at t) (not_before t) (expires_at t) (attributes t) (attributes_signature t) (pk t) (sk t) (signature t) (state t) ty (scope t) (private_key_is_set t) (sig_ok t) (attr_ok t) (issuer_ok t).
Theorem C38_type_not_signed_refuted : forall C A t ty1 now, Z.land ty1 type_message_intent = 0 -> sig_ok t = false -> attr_ok t = false ->
  fst (is_valid C A t (ttype t) now) = true -> fst (is_valid C A (with_type t ty1) ty1 now) = true.
Proof.
  intros C A t ty1 now Hi H1 H2 H. apply C36_valid_iff_acceptable in H; [|split; intros; congruence].
  apply C36_valid_iff_acceptable; [split; cbn; intros; congruence|]. destruct H as (_ & He & Hs & _). split; [apply Z.land_diag|]. split; [exact He|]. split; [exact Hs|].
  cbn [ttype with_type]. rewrite Hi. discriminate.
Qed.
Example swap_example : bytes32 (repeat 171 32) /\ repeat 171 32 <> zero_id /\ fst (is_valid toy one_attr (with_type sample type_node) type_node 50) = true.
Proof. split; [split; [reflexivity|repeat constructor; lia]|]. split; [discriminate|reflexivity]. Qed.

(** ** C39 *)
(** user token -> internal -> user token: everything is preserved, except that the bytes behind the terminator of the
    subject are cleared and the secret key is not carried over (the destination keeps its own). *)
Theorem C39_user_roundtrip : forall A old_user old u,
  bytes32 (u_issuer u) -> bytes32 (u_realm u) -> bytes32 (u_audience u) ->
  (exists n, ad_size A (u_attributes u) = Some n /\ n <= attributes_bytes) ->
  aaatoken4user A old_user (user4aaatoken old u) false =
  mkUser (u_uuid u) (strncpy 255 (u_subject u)) (u_issuer u) (u_realm u) (u_audience u) (u_issued_at u) (u_not_before u) (u_expires_at u)
         (u_public_key u) (u_secret_key old_user) (u_signature u) (u_attributes u) (u_attributes_signature u).
Proof.
  intros A ou old u H1 H2 H3 (n & Hn & Hle). unfold aaatoken4user.
  cbn [andb uuid realm issuer subject audience issued_at not_before expires_at pk signature attributes attributes_signature private_key_is_set user4aaatoken].
  rewrite !id_of_str_of_id by auto. rewrite Hn. replace (n <=? attributes_bytes) with true by lia. rewrite strncpy_idem. reflexivity.
Qed.
Theorem C39_subject_kept : forall u, cstr 255 (strncpy 255 (u_subject u)) = cstr 255 (u_subject u).
Proof. intros. apply cstr_strncpy. auto. Qed.
(** internal -> user -> internal: the signed bytes are the same, so signatures stay verifiable, if the id strings are
    empty or lower case hex. *)
Theorem C39_internal_roundtrip : forall A old_user old t secret,
  id_string 255 (realm t) -> id_string 65 (issuer t) -> id_string 255 (audience t) ->
  hash_input (user4aaatoken old (aaatoken4user A old_user t secret)) = hash_input t.
Proof.
  intros A ou old t sec H1 H2 H3. unfold hash_input. cbn [uuid realm issuer subject audience issued_at not_before expires_at pk user4aaatoken
    aaatoken4user u_uuid u_realm u_issuer u_subject u_audience u_issued_at u_not_before u_expires_at u_public_key].
  rewrite (proj1 (id_string_roundtrip 255 (realm t) (realm old) ltac:(lia) H1)), (proj1 (id_string_roundtrip 65 (issuer t) (issuer old) ltac:(lia) H2)),
    (proj1 (id_string_roundtrip 255 (audience t) (audience old) ltac:(lia) H3)).
  rewrite !cstr_strncpy by lia. reflexivity.
Qed.
Example roundtrip_example : id_string 255 (realm sample) /\ bytes32 (u_issuer toy_id) /\ id_string 65 (bin2hex (repeat 171 32) ++ [0]).
Proof.
  split; [left; reflexivity|]. split; [split; [reflexivity|repeat constructor; lia]|]. right. exists (repeat 171 32).
  split; [split; [reflexivity|repeat constructor; lia]|]. split; [discriminate|reflexivity].
Qed.
(** FINDING: a realm set by name (any string that is not 64 hex digits) is lost on export, so the exported identity
    no longer matches its signature. *)
Theorem C39_realm_name_lost_refuted : forall A old_user t, length (cstr 64 (realm t)) <> 64%nat ->
  u_realm (aaatoken4user A old_user t true) = zero_id /\
  forall old, cstr 255 (realm (user4aaatoken old (aaatoken4user A old_user t true))) = [].
Proof.
  intros A ou t H.
  assert (E : id_of_str (realm t) = zero_id).
  { unfold id_of_str, np_dhkey_create_from_hash. pose proof (cstr_length 64 (realm t)). rewrite firstn_all2 by auto.
    destruct (Nat.eqb_spec (length (cstr 64 (realm t))) 64); [contradiction|]. reflexivity. }
  split; [exact E|]. intros old. cbn [realm user4aaatoken u_realm aaatoken4user]. rewrite E. rewrite cstr_str_of_id; [|lia|split; [reflexivity|repeat constructor; lia]].
  destruct (list_eq_dec Z.eq_dec zero_id zero_id); [auto|contradiction].
Qed.
Example realm_name_example : let t := new_identity_unsigned toy [114;101;97;108;109] [] [] [1] 0 9 [0] in
  length (cstr 64 (realm t)) <> 64%nat /\ hash_input (user4aaatoken t (aaatoken4user one_attr empty_user t true)) <> hash_input t.
Proof. vm_compute. split; discriminate. Qed.

(** ** C41 *)
(** FINDING: np_use_token rejects every token, valid or not: the type of the imported token is never set. *)
Theorem C41_use_token_refuted : forall C A u now exp a id, np_use_token C A u now exp a id = false.
Proof.
  intros. unfold np_use_token.
  destruct (is_valid C A (user4aaatoken (blank u now exp a) id) (ttype (user4aaatoken (blank u now exp a) id)) now) as [b t'] eqn:E.
  destruct b; auto. cbn [negb].
  assert (T : ttype t' = type_undefined).
  { assert (M : marks_true C A (user4aaatoken (blank u now exp a) id)) by (split; cbn; discriminate).
    destruct (is_valid_full _ _ _ _ _ _ _ M E) as (_ & (_&_&_&_&_&_&_&_&_&_&_&_&_&T&_) & _). rewrite T. reflexivity. }
  rewrite T. reflexivity.
Qed.
Example use_token_example : fst (is_valid toy one_attr (user4aaatoken (blank [] 0 0 [0]) (aaatoken4user one_attr empty_user sample false)) 0 50) = true.
Proof. vm_compute. auto. Qed.

Print Assumptions C36_valid_iff_acceptable.
Print Assumptions C36_check_records_verdict.
Print Assumptions C36_every_history_of_checks.
Print Assumptions C36_not_before_refuted.
Print Assumptions C36_self_signed_identity_accepted.
Print Assumptions C37_issuer_signed_partial.
Print Assumptions C37_named_issuer_required.
Print Assumptions C37_honest_issuer_accepted.
Print Assumptions C37_forged_issuer_accepted_refuted.
Print Assumptions C37_attribute_type_unchecked_refuted.
Print Assumptions C38_signed_bytes_determine_fields.
Print Assumptions C38_realm_issuer_swap_refuted.
Print Assumptions C38_subject_audience_shift_refuted.
Print Assumptions C38_type_not_signed_refuted.
Print Assumptions C39_user_roundtrip.
Print Assumptions C39_subject_kept.
Print Assumptions C39_internal_roundtrip.
Print Assumptions C39_realm_name_lost_refuted.
Print Assumptions C41_use_token_refuted.
