(** C96 - C98: files of the identity framework *)
From Verif Require Import Base Token_Model Token_Spec Cbor_Model Cbor_Proofs Idfile_Model Idfile_Spec Idfile_Proofs.

(** * C96 secret keys *)

Lemma signed_carrying C A fresh_of u s k n : (forall s, fresh_identity (fresh_of s) /\ sk (fresh_of s) = s) -> ad_size A (u_attributes u) = Some n ->
  ~ all_zero s -> exists t2, np_sign_identity_self C A fresh_of (carrying u s k) = Ok (Some t2) /\ u_secret_key t2 = s /\ u_public_key t2 = k.
Proof.
  intros Hf Hn Hz. unfold np_sign_identity_self. cbn [u_secret_key carrying]. change (forallb (Z.eqb 0) s) with (zeros s). rewrite (zeros_false _ Hz).
  destruct (Hf s) as ((Hp & _) & Hs). unfold set_signature, update_attributes_signature, attributes_hash, user4aaatoken. rewrite Hp.
  cbn [scope set_sig attributes carrying u_attributes]. change (scope_private_available <? scope_private) with false. cbv iota.
  rewrite Hn. cbn [obind scope set_attr attributes sk]. change (scope_private_available <? scope_private) with false. cbv iota. rewrite Hn. cbn [obind].
  eexists. split; [reflexivity|]. split; [|reflexivity]. cbn. rewrite ?Hp. exact Hs.
Qed.

(** Saved keys are loaded again with the passphrase: into any token and by any later process that finds the file; the
    token is then signed with them.  The directory exists and no file (or one that may be written) is in the way. *)
Theorem C96_roundtrip_partial : forall B C A fresh fresh_of p dir pass nonce t,
  sound_box B -> key_pair (u_secret_key t) (u_public_key t) -> ~ all_zero pass -> byte_string 32 pass -> length nonce = 24%nat ->
  length (np_token_fingerprint C fresh t) = 32%nat -> is_dir p dir = true -> writable p dir Npid ->
  exists p', np_identity_save_secretkey B C fresh p dir pass nonce t = (0, p') /\ cwd p' = cwd p /\
    forall q identifier u, files q dir Npid = files p' dir Npid -> is_dir q dir = true -> length (u_secret_key u) = 64%nat ->
      (forall n, (forall s, fresh_identity (fresh_of s) /\ sk (fresh_of s) = s) -> ad_size A (u_attributes u) = Some n ->
         exists t2, np_sign_identity_self C A fresh_of (carrying u (u_secret_key t) (u_public_key t)) = Ok (Some t2) /\
           np_identity_load_secretkey B C A fresh_of q dir identifier pass u =
           Ok (0, q, if zeros (np_token_fingerprint C fresh t) then identifier else np_token_fingerprint C fresh t, t2) /\
           u_secret_key t2 = u_secret_key t /\ u_public_key t2 = u_public_key t) /\
      (forall pass', byte_string 32 pass' -> pass' <> pass -> ~ all_zero pass' ->
         np_identity_load_secretkey B C A fresh_of q dir identifier pass' u = Ok (2, q, identifier, u)).
Proof.
  intros B C A fresh fresh_of p dir pass nonce t HB HK Hz Hb Hn Hf Hd Hw. set (fp := np_token_fingerprint C fresh t) in *.
  pose proof HK as (_ & (Lp & _) & _).
  destruct (save_keys_ok B HB p dir pass nonce fp (u_secret_key t) (u_public_key t) Hz Hn Hf Lp Hd Hw) as (p' & tail & w & E & Ec & _ & _ & F & _).
  exists p'. split; [exact E|]. split; [exact Ec|]. intros q identifier u Hq Hqd Hu. rewrite F in Hq.
  pose proof (key_fits fp (u_secret_key t) (u_public_key t) Hf Lp) as Hk.
  destruct HB as (O1 & O2 & _ & Ol).
  assert (Hc : Z.of_nat (length (seal B (enc_map (key_entries fp (u_secret_key t) (u_public_key t))) nonce pass)) <= 512) by (rewrite Ol; lia).
  split.
  - intros n Hfr Hn'. destruct (signed_carrying C A fresh_of u (u_secret_key t) (u_public_key t) n Hfr Hn') as (t2 & Hs & K1 & K2).
    { destruct HK as (_ & _ & _ & _ & Ns). intros Z. apply Ns. apply zeros_spec in Z. apply zeros_spec. unfold zeros in *. rewrite forallb_forall in *.
      intros x Hx. apply Z. rewrite <- (firstn_skipn 32). apply in_or_app. left. exact Hx. }
    exists t2. split; [exact Hs|]. split; [|split; assumption]. rewrite (load_reads B C A fresh_of q dir _ w nonce _ tail identifier pass u Hz Hqd Hn Hc Hq eq_refl).
    rewrite O1. destruct (key_read fp (u_secret_key t) (u_public_key t) (skipn (length (enc_map (key_entries fp (u_secret_key t) (u_public_key t)))) (seal B (enc_map (key_entries fp (u_secret_key t) (u_public_key t))) nonce pass)) identifier (u_secret_key u) (u_public_key u) Hf HK) as [-> | L]; [|lia].
    change (with_keys u (u_secret_key t) (u_public_key t)) with (carrying u (u_secret_key t) (u_public_key t)). rewrite Hs. reflexivity.
  - intros pass' Hb' Hp Hz'. rewrite (load_reads B C A fresh_of q dir _ w nonce _ tail identifier pass' u Hz' Hqd Hn Hc Hq eq_refl).
    rewrite O2 by assumption. reflexivity.
Qed.

(** A passphrase of zeros is refused before anything happens *)
Theorem C96_zero_passphrase : forall B C A fresh fresh_of p dir pass nonce identifier t, all_zero pass ->
  np_identity_save_secretkey B C fresh p dir pass nonce t = (5, p) /\
  np_identity_create_secretkey B p dir pass nonce t = (5, p) /\
  np_identity_load_secretkey B C A fresh_of p dir identifier pass t = Ok (5, p, identifier, t) /\
  np_identity_save_token B C A fresh p dir pass nonce t = Ok (5, p) /\
  np_identity_load_token B C fresh p dir identifier pass t = Ok (5, p, t, NotUsed).
Proof.
  intros B C A fresh fresh_of p dir pass nonce identifier t Hz. apply zeros_spec in Hz.
  unfold np_identity_save_secretkey, np_identity_create_secretkey, save_keys, np_identity_load_secretkey, np_identity_save_token, np_identity_load_token.
  rewrite Hz. repeat split; reflexivity.
Qed.

(** Keys are loaded only from a file that holds a box made with that passphrase *)
Theorem C96_authentic : forall B C A fresh_of p dir identifier pass t p' identifier' t', sound_box B ->
  np_identity_load_secretkey B C A fresh_of p dir identifier pass t = Ok (0, p', identifier', t') ->
  exists d bs w nonce m, files p d Npid = Some (bs, w) /\ (d = dir \/ is_dir p dir = false) /\ holds_piece bs (seal B m nonce pass).
Proof.
  intros B C A fresh_of p dir identifier pass t p' identifier' t' (_ & _ & O3 & _). unfold np_identity_load_secretkey.
  destruct (zeros pass); [discriminate|]. unfold read_encrypted, here.
  assert (Hd : files (chdir dir p) (cwd (chdir dir p)) Npid = files p (cwd (chdir dir p)) Npid /\ (cwd (chdir dir p) = dir \/ is_dir p dir = false)).
  { unfold chdir. destruct (is_dir p dir); [split; [reflexivity|left; reflexivity]|split; [reflexivity|right; reflexivity]]. }
  destruct Hd as (-> & Hd). destruct (files p (cwd (chdir dir p)) Npid) as [[bs w]|] eqn:F; [|discriminate].
  destruct (np_serializer_read_encrypted bs (Z.of_nat (length bs))) as [[nonce c]|] eqn:R; [|discriminate].
  destruct (512 <? Z.of_nat (length c)); [discriminate|]. destruct (unseal B c nonce pass) as [m|] eqn:U; [|discriminate].
  intros _. exists (cwd (chdir dir p)), bs, w, nonce, m. split; [exact F|]. split; [exact Hd|]. apply O3 in U. subst c.
  eapply read_encrypted_piece. exact R.
Qed.

(** False: "a file that was not written by the framework is refused".  The content of an envelope is copied to a buffer
    of 512 bytes whatever its length, before any key is used. *)
Theorem C96_large_file_refuted : forall B C A fresh_of p dir identifier pass t nonce c w tail,
  ~ all_zero pass -> is_dir p dir = true -> length nonce = 24%nat -> 512 < Z.of_nat (length c) < 2 ^ 63 ->
  files p dir Npid = Some (envelope nonce c ++ tail, w) ->
  np_identity_load_secretkey B C A fresh_of p dir identifier pass t = UB.
Proof.
  intros B C A fresh_of p dir identifier pass t nonce c w tail Hz Hd Hn Hc F. unfold np_identity_load_secretkey.
  rewrite (zeros_false _ Hz), chdir_ok by exact Hd. unfold read_encrypted, here.
  change (files (set_cwd p dir) (cwd (set_cwd p dir)) Npid) with (files p dir Npid). rewrite F. change (2 ^ 63) with 9223372036854775808 in Hc.
  rewrite envelope_read; [|exact Hn|lia|rewrite app_length, Nat2Z.inj_add; pose proof (envelope_length nonce c Hn); lia].
  destruct (Z.ltb_spec 512 (Z.of_nat (length c))); [reflexivity|lia].
Qed.

(** False: "saving replaces keys saved before".  The file is made read only, so a later process of the same user fails and
    the old keys stay - unless the variable errno happens to hold ENOENT, then the old file is renamed and all is well. *)
Theorem C96_replace_refuted : forall B C fresh p dir pass nonce t p',
  sound_box B -> key_pair (u_secret_key t) (u_public_key t) -> ~ all_zero pass -> length nonce = 24%nat ->
  length (np_token_fingerprint C fresh t) = 32%nat -> is_dir p dir = true -> files p dir Npid = None ->
  np_identity_save_secretkey B C fresh p dir pass nonce t = (0, p') ->
  forall q t2 nonce2, files q dir Npid = files p' dir Npid -> is_dir q dir = true -> root q = false ->
    key_pair (u_secret_key t2) (u_public_key t2) -> length (np_token_fingerprint C fresh t2) = 32%nat -> length nonce2 = 24%nat ->
    (errno q <> 2 -> exists q', np_identity_save_secretkey B C fresh q dir pass nonce2 t2 = (2, q') /\ files q' = files q) /\
    (errno q = 2 -> exists q', np_identity_save_secretkey B C fresh q dir pass nonce2 t2 = (0, q') /\
                     files q' dir (Backup (stamp q)) = files p' dir Npid).
Proof.
  intros B C fresh p dir pass nonce t p' HB HK Hz Hn Hf Hd Hno E q t2 nonce2 Hq Hqd Hr HK2 Hf2 Hn2.
  pose proof HK as (_ & (Lp & _) & _). pose proof HK2 as (_ & (Lp2 & _) & _).
  assert (Hw : writable p dir Npid) by (unfold writable; rewrite Hno; exact I).
  destruct (save_keys_ok B HB p dir pass nonce (np_token_fingerprint C fresh t) (u_secret_key t) (u_public_key t) Hz Hn Hf Lp Hd Hw) as (p1 & tail & w & E1 & _ & _ & _ & F & Hnew).
  unfold np_identity_save_secretkey in E. rewrite E1 in E. injection E as <-. destruct (Hnew Hno) as (-> & _). clear Hnew. rewrite F in Hq.
  unfold np_identity_save_secretkey, save_keys. rewrite (zeros_false _ Hz), chdir_ok by exact Hqd.
  pose proof (key_fits (np_token_fingerprint C fresh t2) (u_secret_key t2) (u_public_key t2) Hf2 Lp2) as Hk.
  unfold np_serializer_write_ed25519, fits. destruct (Z.leb_spec (Z.of_nat (length (enc_map (key_entries (np_token_fingerprint C fresh t2) (u_secret_key t2) (u_public_key t2))))) 512); [|lia].
  split; intros He; unfold write_encrypted, here; change (files (set_cwd q dir) (cwd (set_cwd q dir)) Npid) with (files q dir Npid); rewrite Hq;
  change (errno (set_cwd q dir)) with (errno q).
  - unfold ENOENT. destruct (Z.eqb_spec (errno q) 2); [contradiction|]. cbn [andb].
    change (files (set_cwd q dir) (cwd (set_cwd q dir)) Npid) with (files q dir Npid). rewrite Hq.
    change (root (set_cwd q dir)) with (root q). rewrite Hr. cbn [orb]. eexists. split; reflexivity.
  - unfold ENOENT. rewrite He. change (2 =? 2) with true. destruct (fname_dec Npid Npid); [|contradiction]. cbn [andb].
    change (files (set_cwd q dir) (cwd (set_cwd q dir)) Npid) with (files q dir Npid). rewrite Hq.
    set (q1 := set_file _ Npid None).
    assert (H1 : files q1 (cwd q1) Npid = None) by (unfold q1; apply here_set_file). rewrite H1.
    destruct HB as (_ & _ & _ & Ol). rewrite write_enc_some by (first [exact Hn2 | rewrite Ol; lia]).
    eexists. split; [reflexivity|]. rewrite F. cbn [set_cwd files set_file cwd q1]. rewrite !Nat.eqb_refl.
    destruct (fname_dec (Backup (stamp q)) Npid) as [X|_]; [discriminate|].
    change (stamp (set_cwd q dir)) with (stamp q). destruct (fname_dec (Backup (stamp q)) (Backup (stamp q))); [reflexivity|contradiction].
Qed.

(** False: "the keys are saved in the directory given, or saving fails".  Without such a directory they end in the working
    directory of the process, with np_ok. *)
Theorem C96_no_directory_refuted : forall B C fresh p dir pass nonce t,
  sound_box B -> key_pair (u_secret_key t) (u_public_key t) -> ~ all_zero pass -> length nonce = 24%nat ->
  length (np_token_fingerprint C fresh t) = 32%nat -> is_dir p dir = false -> dir <> cwd p -> files p (cwd p) Npid = None ->
  exists p' c, np_identity_save_secretkey B C fresh p dir pass nonce t = (0, p') /\ files p' (cwd p) Npid = Some (c, false) /\
    files p' dir Npid = files p dir Npid.
Proof.
  intros B C fresh p dir pass nonce t HB HK Hz Hn Hf Hd Hne Hno. pose proof HK as (_ & (Lp & _) & _).
  unfold np_identity_save_secretkey, save_keys, chdir. rewrite (zeros_false _ Hz), Hd.
  pose proof (key_fits (np_token_fingerprint C fresh t) (u_secret_key t) (u_public_key t) Hf Lp) as Hk.
  unfold np_serializer_write_ed25519, fits. destruct (Z.leb_spec (Z.of_nat (length (enc_map (key_entries (np_token_fingerprint C fresh t) (u_secret_key t) (u_public_key t))))) 512); [|lia].
  destruct HB as (_ & _ & _ & Ol). set (c := seal B _ nonce pass).
  assert (Hc : Z.of_nat (length c) < 65536) by (unfold c; rewrite Ol; lia).
  assert (Hw : writable (set_errno p ENOENT) (cwd (set_errno p ENOENT)) Npid) by (unfold writable; cbn; rewrite Hno; exact I).
  destruct (write_encrypted_ok (set_errno p ENOENT) Npid nonce c Hn Hc Hw) as (p' & tail & w & E & F & Ec & _ & _ & Hnew).
  rewrite E. destruct (Hnew Hno) as (-> & _ & Ho). eexists _, _. split; [reflexivity|]. split; [exact F|]. apply Ho. left. exact Hne.
Qed.

(** False: "the framework does not change the working directory of the process".  Loading from a directory without keys does. *)
Theorem C96_cwd_refuted : forall B C A fresh_of p dir identifier pass t, ~ all_zero pass -> is_dir p dir = true -> files p dir Npid = None ->
  exists p', np_identity_load_secretkey B C A fresh_of p dir identifier pass t = Ok (2, p', identifier, t) /\ cwd p' = dir.
Proof.
  intros B C A fresh_of p dir identifier pass t Hz Hd F. unfold np_identity_load_secretkey. rewrite (zeros_false _ Hz), chdir_ok by exact Hd.
  unfold read_encrypted, here. change (files (set_cwd p dir) (cwd (set_cwd p dir)) Npid) with (files p dir Npid). rewrite F.
  eexists. split; reflexivity.
Qed.

(** * C97 tokens *)

Lemma load_token_reads B C fresh q dir fp w nonce c tail pass u : ~ all_zero pass -> is_dir q dir = true -> length nonce = 24%nat ->
  Z.of_nat (length c) <= 10887 -> files q dir (Npt fp) = Some (envelope nonce c ++ tail, w) ->
  np_identity_load_token B C fresh q dir fp pass u =
  match unseal B c nonce pass with
  | None => Ok (2, q, u, NotUsed)
  | Some m => match np_serializer_read_nptoken (m ++ skipn (length m) c) u with
              | None => Ok (2, q, u, NotUsed)
              | Some t1 => if list_eq_dec Z.eq_dec (np_token_fingerprint C fresh t1) fp
                           then Ok (0, q, t1, if zeros (u_secret_key t1) then UsedToken else UsedIdentity)
                           else Ok (5, q, t1, NotUsed)
              end
  end.
Proof.
  intros Hz Hd Hn Hc F. unfold np_identity_load_token. rewrite (zeros_false _ Hz), chdir_ok by exact Hd. unfold read_encrypted, here.
  change (files (set_cwd q dir) (cwd (set_cwd q dir)) (Npt fp)) with (files q dir (Npt fp)). rewrite F.
  rewrite envelope_read; [|exact Hn|lia|rewrite app_length, Nat2Z.inj_add; pose proof (envelope_length nonce c Hn); lia].
  change token_buffer with 10887. destruct (Z.ltb_spec 10887 (Z.of_nat (length c))); [lia|]. rewrite set_cwd_back. reflexivity.
Qed.

(** What a token says of itself survives: a saved token is found again under its fingerprint, with the passphrase, by any
    later process, and a zeroed structure then says what the token said.  With another passphrase nothing is loaded, and
    under the name of another token the file is refused. *)
Theorem C97_roundtrip_partial : forall B C A f p dir pass nonce t n,
  sound_box B -> sized_token A t n -> ~ all_zero pass -> byte_string 32 pass -> length nonce = 24%nat ->
  is_dir p dir = true -> writable p dir (Npt (np_token_fingerprint C f t)) ->
  exists p' t', np_identity_save_token B C A f p dir pass nonce t = Ok (0, p') /\ cwd p' = cwd p /\ is_dir p' = is_dir p /\ same_public n t t' /\
    u_secret_key t' = repeat 0 64 /\
    forall q g fp', files q dir (Npt fp') = files p' dir (Npt (np_token_fingerprint C f t)) -> is_dir q dir = true ->
      (fp' = np_token_fingerprint C f t -> np_identity_load_token B C g q dir fp' pass empty_user = Ok (0, q, t', UsedToken)) /\
      (fp' <> np_token_fingerprint C f t -> np_identity_load_token B C g q dir fp' pass empty_user = Ok (5, q, t', NotUsed)) /\
      (forall pass' u, byte_string 32 pass' -> pass' <> pass -> ~ all_zero pass' -> np_identity_load_token B C g q dir fp' pass' u = Ok (2, q, u, NotUsed)).
Proof.
  intros B C A f p dir pass nonce t n HB HT Hz Hb Hn Hd Hw. destruct HB as (O1 & O2 & _ & Ol).
  pose proof (token_fits A t n HT) as Hfit. set (m := enc_tag 98 ++ enc_map (token_entries n t) ++ enc_map (sign_entries t)) in *.
  set (c := seal B m nonce pass). assert (Hc : Z.of_nat (length c) <= 10864) by (unfold c; rewrite Ol; lia).
  unfold np_identity_save_token, np_serializer_write_nptoken. rewrite (zeros_false _ Hz).
  assert (Hs : ad_size A (u_attributes t) = Some n) by (apply HT). rewrite Hs. cbn [obind]. fold m.
  change token_buffer with 10887. unfold fits. destruct (Z.leb_spec (Z.of_nat (length m)) 10887); [|lia].
  destruct (Z.ltb_spec 10887 (Z.of_nat (length m) + 16)); [lia|]. rewrite chdir_ok by exact Hd. fold c.
  destruct (write_encrypted_ok (set_cwd p dir) (Npt (np_token_fingerprint C f t)) nonce c Hn ltac:(lia) Hw) as (p' & tail & w & E & F & Ec & Ei & _ & _).
  rewrite E. exists (set_cwd p' (cwd p)), (restored t n). split; [reflexivity|]. split; [reflexivity|]. split; [exact Ei|].
  split; [exact (restored_public A t n HT)|]. split; [reflexivity|].
  intros q g fp' Hq Hqd. change (files p' dir (Npt (np_token_fingerprint C f t)) = Some (envelope nonce c ++ tail, w)) in F.
  change (files (set_cwd p' (cwd p))) with (files p') in Hq. rewrite F in Hq.
  assert (Hfp : np_token_fingerprint C g (restored t n) = np_token_fingerprint C f t).
  { rewrite (fingerprint_restored t n). apply (fingerprint_fresh A t n HT). }
  split; [|split].
  - intros ->. rewrite (load_token_reads B C g q dir _ w nonce c tail pass empty_user Hz Hqd Hn ltac:(lia) Hq). unfold c at 1. rewrite O1.
    unfold m at 1. rewrite (token_read A t n HT). rewrite Hfp. destruct (list_eq_dec Z.eq_dec (np_token_fingerprint C f t) (np_token_fingerprint C f t)); [|contradiction].
    reflexivity.
  - intros Hne. rewrite (load_token_reads B C g q dir _ w nonce c tail pass empty_user Hz Hqd Hn ltac:(lia) Hq). unfold c at 1. rewrite O1.
    unfold m at 1. rewrite (token_read A t n HT). rewrite Hfp. destruct (list_eq_dec Z.eq_dec (np_token_fingerprint C f t) fp') as [X|_]; [symmetry in X; contradiction|].
    reflexivity.
  - intros pass' u Hb' Hp Hz'. rewrite (load_token_reads B C g q dir _ w nonce c tail pass' u Hz' Hqd Hn ltac:(lia) Hq). unfold c at 1. rewrite O2 by assumption. reflexivity.
Qed.

(** False: "a saved identity can be used as identity after it has been loaded": its secret key is not in the file, it is
    used as the token of somebody else, and np_ok is returned *)
Theorem C97_secret_refuted : forall B C A f p dir pass nonce t n,
  sound_box B -> sized_token A t n -> ~ all_zero pass -> byte_string 32 pass -> length nonce = 24%nat -> ~ all_zero (u_secret_key t) ->
  is_dir p dir = true -> writable p dir (Npt (np_token_fingerprint C f t)) ->
  exists p' t', np_identity_save_token B C A f p dir pass nonce t = Ok (0, p') /\
    np_identity_load_token B C f p' dir (np_token_fingerprint C f t) pass empty_user = Ok (0, p', t', UsedToken) /\
    u_public_key t' = u_public_key t /\ all_zero (u_secret_key t').
Proof.
  intros B C A f p dir pass nonce t n HB HT Hz Hb Hn _ Hd Hw.
  destruct (C97_roundtrip_partial B C A f p dir pass nonce t n HB HT Hz Hb Hn Hd Hw) as (p' & t' & E & Ec & Hi & Hp & Hsk & Hload).
  assert (Hd' : is_dir p' dir = true) by (rewrite Hi; exact Hd).
  exists p', t'. split; [exact E|]. split; [|split].
  - apply (Hload p' f _ eq_refl Hd'). reflexivity.
  - apply Hp.
  - rewrite Hsk. unfold all_zero. apply Forall_forall. intros x Hx. apply repeat_spec in Hx. exact Hx.
Qed.

(** * C98 the key store *)

(** In the process that stored it an identity is known *)
Theorem C98_session_partial : forall B C A f subkey p k nonce t p' k',
  np_keystore_store_identity B C A f subkey p k nonce t = Ok (0, p', k') -> np_keystore_check_identity C f k' t = 0.
Proof.
  intros B C A f subkey p k nonce t p' k'. unfold np_keystore_store_identity. change np_ok with 0. change np_invalid_operation with 6.
  destruct (Z.eqb_spec (np_keystore_check_identity C f k t) 0) as [Hk|Hk]; [intros E; injection E as _ <-; exact Hk|].
  assert (Hadd : forall q, (if existsb (fun s => if list_eq_dec Z.eq_dec (fp_of C f s) (fp_of C f t) then true else false) (allowed k)
                    then Ok (6, q, k) else Ok (0, q, mkKs (allowed k ++ [t]) (ks_dir k) (ks_id k))) = Ok (0, p', k') ->
                   np_keystore_check_identity C f k' t = 0).
  { intros q. destruct (existsb _ (allowed k)) eqn:Ex; [discriminate|]. intros E. injection E as _ <-. unfold np_keystore_check_identity. cbn [allowed].
    set (P := fun s => if list_eq_dec Z.eq_dec (fp_of C f s) (fp_of C f t) then true else false) in *.
    assert (Hf : find P (allowed k ++ [t]) = Some t).
    { clear - Ex. induction (allowed k) as [|s l IH]; cbn [app find existsb] in *.
      - unfold P. destruct (list_eq_dec Z.eq_dec (fp_of C f t) (fp_of C f t)); [reflexivity|contradiction].
      - destruct (P s); [discriminate|]. apply IH. exact Ex. }
    rewrite Hf. destruct (list_eq_dec Z.eq_dec (u_public_key t) (u_public_key t)); [reflexivity|contradiction]. }
  destruct (np_identity_save_token B C A f p (ks_dir k) (subkey (fp_of C f t)) nonce t) as [[r q]| |]; cbn [obind]; try discriminate.
  destruct (r =? 0); [apply Hadd|].
  destruct (np_identity_load_token B C f q (ks_dir k) (fp_of C f t) (subkey (fp_of C f t)) empty_user) as [[[[r2 q2] t2] us]| |]; cbn [obind]; try discriminate.
  destruct ((r2 =? 0) && _); [apply Hadd|discriminate].
Qed.

(** No identity becomes known by storing another one: who is known after storing [t] was known before, or has the
    fingerprint and the public key of [t] *)
Theorem C98_only_stored : forall B C A f subkey p k nonce t r p' k' s,
  np_keystore_store_identity B C A f subkey p k nonce t = Ok (r, p', k') -> np_keystore_check_identity C f k' s = 0 ->
  np_keystore_check_identity C f k s = 0 \/
  (np_token_fingerprint C f s = np_token_fingerprint C f t /\ u_public_key s = u_public_key t).
Proof.
  intros B C A f subkey p k nonce t r p' k' s E H.
  assert (K : k' = k \/ k' = mkKs (allowed k ++ [t]) (ks_dir k) (ks_id k)).
  { unfold np_keystore_store_identity in E. destruct (np_keystore_check_identity C f k t =? np_ok); [injection E as _ _ <-; left; reflexivity|].
    destruct (np_identity_save_token B C A f p (ks_dir k) (subkey (fp_of C f t)) nonce t) as [[r1 q]| |]; cbn [obind] in E; try discriminate.
    destruct (r1 =? np_ok).
    - destruct (existsb _ (allowed k)); injection E as _ _ <-; [left|right]; reflexivity.
    - destruct (np_identity_load_token B C f q (ks_dir k) (fp_of C f t) (subkey (fp_of C f t)) empty_user) as [[[[r2 q2] t2] us]| |]; cbn [obind] in E; try discriminate.
      destruct ((r2 =? np_ok) && _); [destruct (existsb _ (allowed k)); injection E as _ _ <-; [left|right]; reflexivity|injection E as _ _ <-; left; reflexivity]. }
  destruct K as [-> | ->]; [left; exact H|]. unfold np_keystore_check_identity in *. cbn [allowed] in H.
  set (P := fun x => if list_eq_dec Z.eq_dec (fp_of C f x) (fp_of C f s) then true else false) in *. clear E.
  induction (allowed k) as [|x l IH]; cbn [app find] in *.
  - destruct (P t) eqn:Pt; [|discriminate H]. right. unfold P in Pt. destruct (list_eq_dec Z.eq_dec (fp_of C f t) (fp_of C f s)) as [X|]; [|discriminate].
    unfold fp_of in X. split; [symmetry; exact X|]. destruct (list_eq_dec Z.eq_dec (u_public_key t) (u_public_key s)); [congruence|discriminate H].
  - destruct (P x); [left; exact H|]. apply IH. exact H.
Qed.

(** False: "identities in a key store survive a restart".  Whatever is in the list, writing it fails (the buffer is one or
    two bytes too short), what is left in the file is not recognised, the list of a new process stays empty and every
    identity is unknown to it; loading never returns np_ok, whatever the file holds. *)
Theorem C98_restart_refuted : forall B C f subkey page p k nonce b p', sound_box B -> 0 < page -> length nonce = 24%nat ->
  (forall t, In t (allowed k) -> length (np_token_fingerprint C f t) = 32%nat) -> allowed k <> [] -> is_dir p (ks_dir k) = true ->
  np_keystore_save B C f subkey page p k nonce = Ok (b, p') ->
  b = false /\
  forall q id t, files q (ks_dir k) Npks = files p' (ks_dir k) Npks -> is_dir q (ks_dir k) = true ->
    np_keystore_load_identities page q (mkKs [] (ks_dir k) id) = (6, None) /\
    np_keystore_check_identity C f (mkKs [] (ks_dir k) id) t = 2.
Proof.
  intros B C f subkey page p k nonce b p' (_ & _ & _ & Ol) Hpage Hn Hf Hne Hd E. unfold np_keystore_save in E. rewrite chdir_ok in E by exact Hd.
  set (old := option_map fst (here (set_cwd p (ks_dir k)) Npks)) in E.
  assert (Hlen : forall l, (forall t, In t l -> length (np_token_fingerprint C f t) = 32%nat) -> length (concat (map (fp_of C f) l)) = (32 * length l)%nat).
  { induction l as [|t l IH]; intros H; [reflexivity|]. cbn [map concat length]. rewrite app_length, IH by (intros; apply H; right; assumption).
    unfold fp_of. rewrite (H t) by (left; reflexivity). lia. }
  specialize (Hlen (allowed k) Hf).
  unfold ks_save in E. destruct (map (fp_of C f) (allowed k)) as [|x l] eqn:Em; [destruct (allowed k); [contradiction|discriminate]|].
  rewrite <- Em in *. clear x l Em. rewrite map_length in E.
  destruct (Z.of_nat (length (mapped page _ old)) <? _) eqn:Eub; [discriminate|]. cbv zeta in E.
  set (c := seal B (concat (map (fp_of C f) (allowed k))) nonce (subkey (ks_id k))) in *.
  set (full := 32 * Z.of_nat (length (allowed k)) + Z.of_nat cbor_size + 16) in *.
  assert (Lc : length c = (32 * length (allowed k) + 16)%nat) by (unfold c; rewrite Ol, Hlen; reflexivity).
  assert (Hfull : full = Z.of_nat (length c) + 32) by (unfold full, cbor_size; lia).
  assert (Lk : (1 <= length (allowed k))%nat) by (destruct (allowed k); [contradiction|cbn; lia]).
  assert (Hbuf : exists rest, write_encrypted_buf full nonce c = mkO (208 :: 64 :: rest) true).
  { rewrite front_step by (first [exact Hn|lia]). pose proof (front_length nonce Hn) as Fl.
    assert (Hfr : exists r, front nonce = 208 :: 64 :: r) by (eexists; reflexivity). destruct Hfr as (r & Hfr).
    assert (Hh2 : (2 <= length (head 2 (Z.of_nat (length c))))%nat).
    { unfold head. destruct (Z.ltb_spec (Z.of_nat (length c)) 24); [lia|]. destruct (Z.of_nat (length c) <? 256); [cbn; lia|].
      destruct (Z.of_nat (length c) <? 65536); [cbn; lia|]. destruct (Z.of_nat (length c) <? 4294967296); cbn; lia. }
    set (h := head 2 (Z.of_nat (length c))) in *.
    unfold o_app at 2. cbn [oerr ob orb]. rewrite Fl.
    destruct (Z.ltb_spec full (Z.of_nat (30 + length h))).
    - rewrite Hfr. unfold o_app, o_ins. cbn [oerr orb]. eexists. reflexivity.
    - unfold o_app. cbn [oerr ob orb]. destruct (Z.ltb_spec full (Z.of_nat (length (front nonce ++ h) + length c))).
      + unfold o_ins. cbn [oerr ob orb]. rewrite Hfr. eexists. reflexivity.
      + rewrite o_ins_full. { rewrite Hfr. eexists. reflexivity. }
        rewrite !app_length, Fl in *. change (length (head 4 3)) with 1%nat. lia. }
  destruct Hbuf as (rest & Hbuf). rewrite Hbuf in E. cbn [oerr ob] in E. cbn [obind] in E. injection E as <- <-.
  split; [reflexivity|]. intros q id t Hq Hqd. split; [|reflexivity].
  unfold np_keystore_load_identities. cbn [ks_dir]. rewrite chdir_ok by exact Hqd. unfold here.
  change (files (set_cwd q (ks_dir k)) (cwd (set_cwd q (ks_dir k))) Npks) with (files q (ks_dir k) Npks). rewrite Hq.
  cbn [files set_cwd set_file cwd]. rewrite Nat.eqb_refl. destruct (fname_dec Npks Npks); [|contradiction]. cbn [option_map fst].
  unfold over. cbn [app]. unfold mapped. match goal with |- context [if ?x <? 0 then _ else _] => destruct (Z.ltb_spec x 0); [lia|] end.
  f_equal.
Qed.

Theorem C98_load_refuted : forall page p k, fst (np_keystore_load_identities page p k) = 6.
Proof. reflexivity. Qed.

(** * Concrete cases *)
(** a box for the examples: the text with a number made of key and nonce behind it *)
Definition ex_tag (n k : list Z) : list Z := [unbe k 0; unbe n 0] ++ repeat 0 14.
Definition ex_box : box :=
  mkBox (fun m n k => m ++ ex_tag n k)
        (fun c n k => if list_eq_dec Z.eq_dec (skipn (length c - 16) c) (ex_tag n k) then Some (firstn (length c - 16) c) else None).
Lemma unbe_inj l : forall l' a a', length l = length l' -> Forall (fun b => 0 <= b < 256) l -> Forall (fun b => 0 <= b < 256) l' ->
  unbe l a = unbe l' a' -> l = l' /\ a = a'.
Proof.
  induction l as [|b l IH]; intros [|b' l'] a a' L F F' E; try discriminate L; [split; [reflexivity|exact E]|].
  cbn [unbe] in E. inversion F; subst. inversion F'; subst. injection L as L.
  destruct (IH l' _ _ L H2 H4 E) as (-> & E2). assert (b = b' /\ a = a') as (-> & ->) by lia. split; reflexivity.
Qed.
Lemma ex_box_sound : sound_box ex_box.
Proof.
  assert (L : forall m n k, length (m ++ ex_tag n k) = (length m + 16)%nat) by (intros; rewrite app_length; reflexivity).
  assert (T : forall m n k, skipn (length (m ++ ex_tag n k) - 16) (m ++ ex_tag n k) = ex_tag n k).
  { intros. rewrite L. replace (length m + 16 - 16)%nat with (length m) by lia. rewrite skipn_app, skipn_all, Nat.sub_diag. reflexivity. }
  assert (H : forall m n k, firstn (length (m ++ ex_tag n k) - 16) (m ++ ex_tag n k) = m).
  { intros. rewrite L. replace (length m + 16 - 16)%nat with (length m) by lia. rewrite firstn_app, firstn_all, Nat.sub_diag. apply app_nil_r. }
  repeat split; unfold ex_box; cbn [seal unseal].
  - intros. rewrite T, H. destruct (list_eq_dec Z.eq_dec (ex_tag n k) (ex_tag n k)); [reflexivity|contradiction].
  - intros m n k k' (Lk & Fk) (Lk' & Fk') Hne. rewrite T. destruct (list_eq_dec Z.eq_dec (ex_tag n k) (ex_tag n k')) as [E|]; [|reflexivity].
    exfalso. injection E as E. apply Hne. symmetry. apply (unbe_inj k k' 0 0); [congruence|assumption|assumption|exact E].
  - intros c n k m E. destruct (list_eq_dec Z.eq_dec (skipn (length c - 16) c) (ex_tag n k)) as [X|]; [|discriminate]. injection E as <-.
    rewrite <- X. symmetry. apply firstn_skipn.
  - exact L.
Qed.
Definition ex_crypto : crypto := mkCrypto (fun l => repeat (fold_left Z.add l 0 mod 256) 32) (fun _ _ => repeat 7 64) (fun _ _ _ => true) (fun k => skipn 32 k).
Definition ex_attr : attr_ops := mkAttr (fun _ => Some 8) (fun _ _ => None) (fun a _ _ => Some a).
Definition ex_fresh : token := blank (repeat 9 16) 5 6 (repeat 0 (Z.to_nat attributes_bytes)).
Definition ex_fresh_of (s : list Z) : token :=
  mkTok (repeat 9 16) (repeat 0 255) (repeat 0 65) (repeat 0 255) (repeat 0 255) 5 5 6 [] (repeat 0 64) (repeat 0 32) s (repeat 0 64) 0 type_undefined scope_private true false false false.
Definition ex_sk : list Z := repeat 3 32 ++ repeat 4 32.
Definition ex_token (a : list Z) : user_token :=
  mkUser (repeat 1 16) ([116; 111; 107] ++ repeat 0 252) (repeat 2 32) zero_id zero_id 1 2 3 (repeat 4 32) ex_sk (repeat 5 64) a (repeat 6 64).
Definition ex_proc : proc := mkProc (fun _ _ => None) (fun d => Nat.ltb d 5) 0 0 false 77.

Example C96_ex : key_pair ex_sk (repeat 4 32) /\ writable ex_proc 3 Npid /\ (forall s, fresh_identity (ex_fresh_of s) /\ sk (ex_fresh_of s) = s) /\ is_dir ex_proc 3 = true /\ is_dir ex_proc 7 = false /\
  exists p', np_identity_save_secretkey ex_box ex_crypto ex_fresh ex_proc 3 (repeat 8 32) (repeat 1 24) (ex_token []) = (0, p') /\
    match np_identity_load_secretkey ex_box ex_crypto ex_attr ex_fresh_of p' 3 zero_id (repeat 8 32) (carrying (ex_token []) (repeat 0 64) (repeat 0 32)) with
    | Ok (r, q, i, t) => r = 0 /\ cwd q = 0%nat /\ i = np_token_fingerprint ex_crypto ex_fresh (ex_token []) /\ u_public_key t = repeat 4 32
    | _ => False
    end /\
    match np_identity_load_secretkey ex_box ex_crypto ex_attr ex_fresh_of p' 3 zero_id (repeat 9 32) (carrying (ex_token []) (repeat 0 64) (repeat 0 32)) with
    | Ok (r, _, _, _) => r = 2
    | _ => False
    end.
Proof.
  assert (B : forall n x, 0 <= x < 256 -> byte_string n (repeat x n)).
  { intros n x H. split; [apply repeat_length|]. apply Forall_forall. intros y Hy. apply repeat_spec in Hy. subst y. exact H. }
  repeat split.
  - apply Forall_app. split; apply B; lia.
  - apply B. lia.
  - intros H. inversion H. discriminate.
  - intros H. inversion H. discriminate.
  - eexists. split; [vm_compute; reflexivity|]. vm_compute. repeat split; reflexivity.
Qed.

Example C97_ex : exists a, sized_token ex_attr (ex_token a) 8 /\ ~ all_zero (u_secret_key (ex_token a)).
Proof.
  assert (B : forall n x, 0 <= x < 256 -> byte_string n (repeat x n)).
  { intros n x H. split; [apply repeat_length|]. apply Forall_forall. intros y Hy. apply repeat_spec in Hy. subst y. exact H. }
  exists (repeat 0 (Z.to_nat 10240)). split.
  - unfold sized_token, ex_token. cbn [u_uuid u_realm u_issuer u_subject u_audience u_public_key u_expires_at u_issued_at u_not_before u_signature u_attributes u_attributes_signature u_secret_key].
    repeat split; try (apply B; lia); try lia; try (apply repeat_length); try reflexivity.
    all: try (apply Forall_app; split; [repeat constructor; lia|apply B; lia]). all: try (rewrite repeat_length; lia).
  - intros H. inversion H. discriminate.
Qed.

Example C98_ex : exists k, allowed k = [ex_token []] /\
  (forall t, In t (allowed k) -> length (np_token_fingerprint ex_crypto ex_fresh t) = 32%nat) /\
  match np_keystore_save ex_box ex_crypto ex_fresh (fun _ => repeat 8 32) 100 ex_proc k (repeat 1 24) with
  | Ok (b, p') => b = false /\ files p' 3 Npks <> None
  | _ => False
  end.
Proof. exists (mkKs [ex_token []] 3 (repeat 2 32)). split; [reflexivity|]. split; [intros t _; apply repeat_length|]. vm_compute. split; [reflexivity|discriminate]. Qed.

(** Loading a token, with whatever result, leaves the working directory and all files as they were, and a token that was
    not loaded is not used. *)
Theorem C97_cwd : forall B C fresh p dir fp pass t r p' t' u, np_identity_load_token B C fresh p dir fp pass t = Ok (r, p', t', u) ->
  cwd p' = cwd p /\ files p' = files p /\ is_dir p' = is_dir p /\ (r <> 0 -> u = NotUsed).
Proof.
  intros B C fresh p dir fp pass t r p' t' u. unfold np_identity_load_token. cbv zeta.
  assert (P : cwd (set_cwd (chdir dir p) (cwd p)) = cwd p /\ files (set_cwd (chdir dir p) (cwd p)) = files p /\ is_dir (set_cwd (chdir dir p) (cwd p)) = is_dir p).
  { unfold chdir. destruct (is_dir p dir); repeat split; reflexivity. }
  destruct P as (P1 & P2 & P3). set (p2 := set_cwd (chdir dir p) (cwd p)) in *.
  destruct (zeros pass); [intros E; injection E as <- <- <- <-; auto|].
  destruct (read_encrypted _ _) as [[nonce c]|]; [|intros E; injection E as <- <- <- <-; auto]. destruct (token_buffer <? _); [discriminate|].
  destruct (unseal B c nonce pass) as [m|]; [|intros E; injection E as <- <- <- <-; auto]. destruct (np_serializer_read_nptoken _ _) as [t1|]; [|intros E; injection E as <- <- <- <-; auto].
  destruct (list_eq_dec Z.eq_dec _ fp); intros E; injection E as <- <- <- <-; auto. repeat split; auto. intros H. exfalso. apply H. reflexivity.
Qed.

Print Assumptions C96_roundtrip_partial.
Print Assumptions C96_zero_passphrase.
Print Assumptions C96_authentic.
Print Assumptions C96_large_file_refuted.
Print Assumptions C96_replace_refuted.
Print Assumptions C96_no_directory_refuted.
Print Assumptions C96_cwd_refuted.
Print Assumptions C97_roundtrip_partial.
Print Assumptions C97_secret_refuted.
Print Assumptions C98_session_partial.
Print Assumptions C98_only_stored.
Print Assumptions C98_restart_refuted.
Print Assumptions C98_load_refuted.
Print Assumptions C97_cwd.
