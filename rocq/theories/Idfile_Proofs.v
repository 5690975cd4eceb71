From Verif Require Import Base Token_Model Token_Spec Token_Proofs Cbor_Model Cbor_Proofs Idfile_Model Idfile_Spec.

Local Notation len l := (Z.of_nat (length l)).

(** * Maps with labels *)
Definition int64 (z : Z) : Prop := -9223372036854775808 <= z <= 9223372036854775807.
Definition short (b : list Z) : Prop := len b < 18446744073709551616.
Definition wf_label (l : label) : Prop := match l with LN z => int64 z | LS t => short t end.
Definition wf_val (v : mval) : Prop :=
  match v with
  | MInt z => int64 z | MBytes b => short b | MText b => short b | MDouble d => 0 <= d < 18446744073709551616
  | MInts l => Forall int64 l /\ short l
  end.
Definition wf_entry (e : label * mval) : Prop := wf_label (fst e) /\ wf_val (snd e).

Lemma read_label_enc l r : wf_label l -> read_label (enc_label l ++ r) = Some (l, r).
Proof.
  intros H. unfold read_label. destruct l; cbn [enc_label wf_label] in *.
  - rewrite (reads_next _ _ _ _ (reads_int _ H)). reflexivity.
  - rewrite (reads_next _ _ _ _ (reads_text _ H)). reflexivity.
Qed.
Lemma read_ints_enc l : Forall int64 l -> forall r, read_ints (length l) (flat_map enc_int l ++ r) = Some (l, r).
Proof.
  induction 1 as [|z l Hz _ IH]; intros r; [reflexivity|]. cbn [length read_ints flat_map].
  rewrite <- app_assoc. rewrite (reads_next _ _ _ _ (reads_int _ Hz)). rewrite IH. reflexivity.
Qed.
Lemma enc_int_nonempty z : (1 <= length (enc_int z))%nat.
Proof. unfold enc_int. destruct (z <? 0); [pose proof (head_nonempty 1 (-1 - z))|pose proof (head_nonempty 0 z)]; lia. Qed.
Lemma flat_int_length l : (length l <= length (flat_map enc_int l))%nat.
Proof. induction l; cbn [flat_map length]; [lia|]. rewrite app_length. pose proof (enc_int_nonempty a). lia. Qed.
Lemma read_val_enc v r : wf_val v -> read_val (enc_val v ++ r) = Some (v, r).
Proof.
  intros H. unfold read_val. destruct v; cbn [enc_val wf_val] in *.
  - rewrite (reads_next _ _ _ _ (reads_int _ H)). reflexivity.
  - rewrite (reads_next _ _ _ _ (reads_bytes _ H)). reflexivity.
  - rewrite (reads_next _ _ _ _ (reads_text _ H)). reflexivity.
  - rewrite (reads_next _ _ _ _ (reads_double _ H)). reflexivity.
  - destruct H as (Hl & Hs). unfold short in Hs. rewrite <- app_assoc.
    rewrite (reads_next _ _ _ _ (reads_array (len l) ltac:(lia))).
    pose proof (flat_int_length l). rewrite app_length.
    destruct (Z.leb_spec (len l) (Z.of_nat (length (flat_map enc_int l) + length r))); [|lia].
    rewrite Nat2Z.id, read_ints_enc by exact Hl. reflexivity.
Qed.
Lemma read_entries_enc es : Forall wf_entry es -> forall r, read_entries (length es) (flat_map enc_entry es ++ r) = Some (es, r).
Proof.
  induction 1 as [|[l v] es (Hl & Hv) _ IH]; intros r; [reflexivity|]. cbn [length read_entries flat_map enc_entry fst snd].
  unfold enc_entry. cbn [fst snd] in *. rewrite <- !app_assoc. rewrite read_label_enc by exact Hl.
  rewrite read_val_enc by exact Hv. rewrite IH. reflexivity.
Qed.
Lemma enc_label_nonempty l : (1 <= length (enc_label l))%nat.
Proof. destruct l; cbn [enc_label]; [apply enc_int_nonempty|]. unfold enc_text. rewrite app_length. pose proof (head_nonempty 3 (len t)). lia. Qed.
Lemma flat_entries_length es : (length es <= length (flat_map enc_entry es))%nat.
Proof. induction es; cbn [flat_map length]; [lia|]. rewrite app_length. unfold enc_entry at 1. rewrite app_length. pose proof (enc_label_nonempty (fst a)). lia. Qed.

Lemma reads_tag_map t n : 0 <= t < 18446744073709551616 -> 0 <= n < 18446744073709551616 -> reads (enc_tag t ++ head 5 n) [t] (IMap n).
Proof. intros. apply (reads_tag t _ [] (IMap n)); [assumption|]. apply reads_map; assumption. Qed.
Lemma read_map_enc es r : Forall wf_entry es -> len es < 18446744073709551616 -> read_map (enc_map es ++ r) = Some ([], es, r).
Proof.
  intros H L. unfold read_map, enc_map. rewrite <- app_assoc. rewrite (reads_next _ _ _ _ (reads_map (len es) ltac:(lia))).
  pose proof (flat_entries_length es). rewrite app_length.
  destruct (Z.leb_spec (len es) (Z.of_nat (length (flat_map enc_entry es) + length r))); [|lia].
  rewrite Nat2Z.id, read_entries_enc by exact H. reflexivity.
Qed.
Lemma read_map_tag t es r : 0 <= t < 18446744073709551616 -> Forall wf_entry es -> len es < 18446744073709551616 ->
  read_map (enc_tag t ++ enc_map es ++ r) = Some ([t], es, r).
Proof.
  intros Ht H L. unfold read_map, enc_map. rewrite app_assoc, app_assoc, <- (app_assoc _ _ r).
  rewrite (reads_next _ _ _ _ (reads_tag_map t (len es) Ht ltac:(lia))).
  pose proof (flat_entries_length es). rewrite app_length.
  destruct (Z.leb_spec (len es) (Z.of_nat (length (flat_map enc_entry es) + length r))); [|lia].
  rewrite Nat2Z.id, read_entries_enc by exact H. reflexivity.
Qed.

(** * The envelope *)
Lemma head_len_le m a : 0 <= a < 18446744073709551616 -> (length (head m a) <= 9)%nat.
Proof.
  intros H. unfold head. destruct (a <? 24); [cbn; lia|]. destruct (a <? 256); [cbn; lia|].
  destruct (a <? 65536); [cbn; lia|]. destruct (a <? 4294967296); cbn; lia.
Qed.

Lemma o_app_ok cap x b : Z.of_nat (length b + length x) <= cap -> o_app cap x (mkO b false) = mkO (b ++ x) false.
Proof. intros H. unfold o_app. cbn [oerr ob orb]. destruct (Z.ltb_spec cap (Z.of_nat (length b + length x))); [lia|reflexivity]. Qed.
Lemma o_ins_ok cap n x b : Z.of_nat (length b + length x) <= cap -> o_ins cap n x (mkO b false) = mkO (firstn n b ++ x ++ skipn n b) false.
Proof. intros H. unfold o_ins. cbn [oerr ob orb]. destruct (Z.ltb_spec cap (Z.of_nat (length b + length x))); [lia|reflexivity]. Qed.
Lemma o_ins_full cap n x b : cap < Z.of_nat (length b + length x) -> o_ins cap n x (mkO b false) = mkO b true.
Proof. intros H. unfold o_ins. cbn [oerr ob orb]. destruct (Z.ltb_spec cap (Z.of_nat (length b + length x))); [reflexivity|lia]. Qed.
Lemma o_app_full cap x b : cap < Z.of_nat (length b + length x) -> o_app cap x (mkO b false) = mkO b true.
Proof. intros H. unfold o_app. cbn [oerr ob orb]. destruct (Z.ltb_spec cap (Z.of_nat (length b + length x))); [reflexivity|lia]. Qed.

(** what is in the buffer before the content *)
Definition front (nonce : list Z) : list Z := [208; 64; 161; 6; 88; 24] ++ nonce.
Lemma front_step cap nonce m : length nonce = 24%nat -> 30 <= cap ->
  write_encrypted_buf cap nonce m =
  o_ins cap 1 (head 4 3) (o_app cap m (o_app cap (head 2 (len m)) (mkO (front nonce) false))).
Proof.
  intros Hn Hc. unfold write_encrypted_buf. change (enc_tag 16) with [208]. change (head 2 0) with [64]. change (enc_int 6) with [6].
  rewrite Hn. change (head 2 (Z.of_nat 24)) with [88; 24]. change (head 5 1) with [161].
  rewrite (o_app_ok cap [208] []) by (cbn; lia). rewrite (o_app_ok cap [64]) by (cbn; lia). rewrite (o_app_ok cap [6]) by (cbn; lia).
  rewrite (o_app_ok cap [88; 24]) by (cbn; lia). rewrite (o_app_ok cap nonce) by (cbn [app length]; lia).
  rewrite (o_ins_ok cap 2) by (rewrite app_length; cbn [app length]; lia). reflexivity.
Qed.
Lemma front_length nonce : length nonce = 24%nat -> length (front nonce) = 30%nat.
Proof. intros H. unfold front. rewrite app_length, H. reflexivity. Qed.
Lemma envelope_written cap nonce m : length nonce = 24%nat -> 31 + Z.of_nat (length (head 2 (len m))) + len m <= cap ->
  write_encrypted_buf cap nonce m = mkO (envelope nonce m) false.
Proof.
  intros Hn Hc. rewrite front_step by lia. pose proof (front_length nonce Hn) as F.
  rewrite o_app_ok by lia. rewrite o_app_ok by (rewrite app_length; lia). change (head 4 3) with [131].
  rewrite o_ins_ok by (rewrite !app_length; cbn [length]; lia).
  f_equal. unfold envelope, front. cbn [firstn skipn app]. rewrite <- !app_assoc. reflexivity.
Qed.
Lemma envelope_length nonce m : length nonce = 24%nat -> len (envelope nonce m) = 31 + Z.of_nat (length (head 2 (len m))) + len m.
Proof. intros H. unfold envelope. rewrite !app_length, H. cbn [length]. lia. Qed.

Lemma reads_env_head : reads [208; 131] [16] (IArray 3).
Proof. change [208; 131] with (enc_tag 16 ++ head 4 3). apply (reads_tag 16 _ [] (IArray 3)); [lia|]. apply reads_array; lia. Qed.
Lemma envelope_split nonce m : length nonce = 24%nat ->
  envelope nonce m = [208; 131] ++ enc_bytes [] ++ enc_map [(LN 6, MBytes nonce)] ++ enc_bytes m.
Proof.
  intros Hn. unfold envelope, enc_map, enc_bytes. cbn [flat_map enc_entry enc_label enc_val fst snd app]. unfold enc_entry, enc_bytes.
  cbn [enc_label enc_val fst snd]. unfold enc_bytes. rewrite Hn. change (head 2 (Z.of_nat 24)) with [88; 24].
  change (head 2 (len (@nil Z))) with [64]. change (head 5 (len [(LN 6, MBytes nonce)])) with [161]. change (enc_int 6) with [6].
  cbn [app]. rewrite app_nil_r. reflexivity.
Qed.
Lemma envelope_read nonce m rest cb : length nonce = 24%nat -> len m < 18446744073709551616 -> len m <= cb ->
  np_serializer_read_encrypted (envelope nonce m ++ rest) cb = Some (nonce, m).
Proof.
  intros Hn Hm Hcb. rewrite envelope_split by exact Hn. unfold np_serializer_read_encrypted. rewrite <- !app_assoc.
  rewrite (reads_next _ _ _ _ reads_env_head). cbn [hd]. change (16 =? 16) with true. change (3 =? 3) with true. cbn [andb].
  rewrite (reads_next _ _ _ _ (reads_bytes [] ltac:(cbn; lia))).
  rewrite read_map_enc.
  2:{ constructor; [|constructor]. split; cbn [fst snd wf_label wf_val]; unfold int64, short; lia. }
  2:{ cbn; lia. }
  unfold find_label. cbn [filter fst label_eqb]. change (6 =? 6) with true. cbv iota. rewrite Hn. cbn [Nat.eqb].
  rewrite (reads_next _ _ _ _ (reads_bytes m Hm)). destruct (Z.leb_spec (len m) cb); [reflexivity|lia].
Qed.
Lemma write_enc_some nonce m : length nonce = 24%nat -> len m < 65536 ->
  np_serializer_write_encrypted (len m + 48) nonce m = Some (envelope nonce m).
Proof.
  intros Hn Hm. unfold np_serializer_write_encrypted. rewrite envelope_written; [reflexivity|exact Hn|].
  pose proof (head_len_le 2 (len m) ltac:(lia)). lia.
Qed.

(** * Files *)
Lemma zeros_spec l : zeros l = true <-> all_zero l.
Proof.
  unfold zeros, all_zero. rewrite forallb_forall, Forall_forall. split; intros H x Hx; specialize (H x Hx); lia.
Qed.
Lemma zeros_false l : ~ all_zero l -> zeros l = false.
Proof. intros H. destruct (zeros l) eqn:E; [|reflexivity]. apply zeros_spec in E. contradiction. Qed.
Lemma chdir_ok p d : is_dir p d = true -> chdir d p = set_cwd p d.
Proof. intros H. unfold chdir. rewrite H. reflexivity. Qed.

Definition file_of (p : proc) (d : nat) (n : fname) : list Z := match files p d n with Some (b, _) => b | None => [] end.
Lemma here_set_file p n f : here (set_file p n f) n = f.
Proof. unfold here, set_file. cbn [files cwd]. rewrite Nat.eqb_refl. destruct (fname_dec n n); [reflexivity|contradiction]. Qed.

Lemma write_encrypted_ok p n nonce m : length nonce = 24%nat -> len m < 65536 -> writable p (cwd p) n ->
  exists p' tail w, write_encrypted p n nonce m = (true, p') /\ files p' (cwd p) n = Some (envelope nonce m ++ tail, w) /\
    cwd p' = cwd p /\ is_dir p' = is_dir p /\ root p' = root p /\
    (files p (cwd p) n = None -> w = false /\ errno p' = 2 /\
       forall d k, (d <> cwd p \/ k <> n) -> files p' d k = files p d k).
Proof.
  intros Hn Hm W. unfold write_encrypted, writable, here in *.
  destruct (files p (cwd p) n) as [[old w]|] eqn:E.
  - destruct ((errno p =? ENOENT) && _) eqn:Eb.
    + unfold ENOENT in Eb. destruct (fname_dec n Npid) as [->|]; [|rewrite andb_false_r in Eb; discriminate].
      rewrite E. set (p1 := set_file (set_file p (Backup (stamp p)) (Some (old, w))) Npid None).
      assert (H1 : files p1 (cwd p1) Npid = None) by (apply (here_set_file (set_file p (Backup (stamp p)) (Some (old, w))) Npid None)).
      rewrite H1. rewrite write_enc_some by assumption.
      eexists _, [], false. split; [reflexivity|]. rewrite app_nil_r. split.
      { unfold over. rewrite skipn_nil, app_nil_r. apply (here_set_file p1 Npid). }
      repeat split; try reflexivity. all: try (intros; congruence).
    + rewrite E. assert (Hwr : w || root p = true) by (destruct W as [H|H]; rewrite H; [reflexivity|apply orb_true_r]). rewrite Hwr; rewrite write_enc_some by assumption;
      (eexists _, (skipn (length (envelope nonce m)) old), _; split; [reflexivity|]; split; [apply (here_set_file p n)|];
       repeat split; try reflexivity; try (intros; congruence)).
  - assert (H1 : files (set_errno p ENOENT) (cwd (set_errno p ENOENT)) n = None) by exact E.
    rewrite H1. destruct ((errno (set_errno p ENOENT) =? ENOENT) && _); rewrite H1; rewrite write_enc_some by assumption;
    (eexists _, [], false; split; [reflexivity|]; rewrite app_nil_r; split;
     [unfold over; rewrite skipn_nil, app_nil_r; apply (here_set_file (set_errno p ENOENT) n)|];
     repeat split; try reflexivity; intros d k Hd; unfold set_file; cbn [files cwd set_errno];
     destruct (Nat.eqb_spec d (cwd p)); [|reflexivity]; destruct (fname_dec k n); [|reflexivity]; destruct Hd; contradiction).
Qed.

(** * Keys *)
Lemma Forall_opt {A} (P : A -> Prop) (b : bool) x : P x -> Forall P (if b then [] else [x]).
Proof. destruct b; repeat constructor; assumption. Qed.
Lemma key_entries_wf i sk pk : length i = 32%nat -> length pk = 32%nat -> Forall wf_entry (key_entries i sk pk) /\ (length (key_entries i sk pk) <= 6)%nat.
Proof.
  intros Hi Hp. assert (H4 : (length (firstn 32 sk) <= 32)%nat) by (rewrite firstn_length; lia).
  assert (W : forall z b, int64 z -> (length b <= 32)%nat -> wf_entry (LN z, MBytes b)).
  { intros z b Hz Hb. split; cbn [fst snd wf_label wf_val]; unfold short; [exact Hz|lia]. }
  unfold key_entries. split.
  - repeat rewrite Forall_app. split; [repeat constructor; lia|]. split; [apply Forall_opt, W; [unfold int64|]; lia|].
    split; [repeat constructor; cbn; unfold int64, short; cbn; try lia; repeat constructor; lia|].
    split; [|]; apply Forall_opt, W; first [unfold int64; lia|lia].
  - rewrite !app_length. destruct (zeros i), (zeros pk), (zeros (firstn 32 sk)); cbn; lia.
Qed.

Lemma enc_bytes_le b : (length b <= 32)%nat -> (length (enc_bytes b) <= 41)%nat.
Proof. intros H. unfold enc_bytes. rewrite app_length. pose proof (head_len_le 2 (len b) ltac:(lia)). lia. Qed.
Lemma key_fits i sk pk : length i = 32%nat -> length pk = 32%nat ->
  len (enc_map (key_entries i sk pk)) <= 400.
Proof.
  intros Hi Hp. unfold enc_map. rewrite app_length. destruct (key_entries_wf i sk pk Hi Hp) as (_ & H6).
  pose proof (head_len_le 5 (len (key_entries i sk pk)) ltac:(lia)) as Hh.
  assert (Hf : (length (flat_map enc_entry (key_entries i sk pk)) <= 200)%nat); [|lia].
  assert (H4 : (length (firstn 32 sk) <= 32)%nat) by (rewrite firstn_length; lia).
  pose proof (enc_bytes_le i ltac:(lia)). pose proof (enc_bytes_le pk ltac:(lia)). pose proof (enc_bytes_le _ H4).
  unfold key_entries. rewrite !flat_map_app, !app_length.
  assert (F1 : length (flat_map enc_entry [(LN 1, MInt 1)]) = 2%nat) by reflexivity.
  assert (F2 : length (flat_map enc_entry [(LN 4, MInts [1; 2]); (LN (-1), MInt 6)]) = 6%nat) by reflexivity.
  assert (F3 : forall (c : bool) z b, (z = 2 \/ z = -2 \/ z = -4) -> (length (flat_map enc_entry (if c then [] else [(LN z, MBytes b)])) <= 1 + length (enc_bytes b))%nat).
  { intros c z b Hz. destruct c; [cbn; lia|]. cbn [flat_map]. rewrite app_nil_r. unfold enc_entry. cbn [fst snd enc_label enc_val]. rewrite app_length.
    assert (length (enc_int z) = 1%nat) by (destruct Hz as [-> | [-> | ->]]; reflexivity). lia. }
  rewrite F1, F2. pose proof (F3 (zeros i) 2 i ltac:(auto)). pose proof (F3 (zeros pk) (-2) pk ltac:(auto)).
  pose proof (F3 (zeros (firstn 32 sk)) (-4) (firstn 32 sk) ltac:(auto)). lia.
Qed.

Lemma key_read i sk pk rest i0 sk0 pk0 : length i = 32%nat -> key_pair sk pk ->
  np_serializer_read_ed25519 (enc_map (key_entries i sk pk) ++ rest) i0 sk0 pk0 =
  Some (if zeros i then i0 else i, sk, pk) \/ (length sk0 < 32)%nat.
Proof.
  intros Hi ((Ls & _) & (Lp & _) & Hsp & Np & Ns). destruct (le_lt_dec 32 (length sk0)) as [L0|]; [left|right; assumption].
  destruct (key_entries_wf i sk pk Hi Lp) as (Hw & H6). unfold np_serializer_read_ed25519.
  rewrite read_map_enc by (first [exact Hw|lia]). unfold key_entries. rewrite (zeros_false _ Np), (zeros_false _ Ns).
  assert (F32 : forall l : list Z, length l = 32%nat -> firstn 32 l = l) by (intros l <-; apply firstn_all).
  assert (E1 : firstn 32 (firstn 32 sk) = firstn 32 sk) by (rewrite firstn_firstn; reflexivity).
  set (es := [(LN 1, MInt 1)] ++ _).
  assert (G1 : find_label (LN 1) es = Found (MInt 1)) by (unfold es; destruct (zeros i); reflexivity).
  assert (G2 : find_label (LN 2) es = if zeros i then NotFound else Found (MBytes i)) by (unfold es; destruct (zeros i); reflexivity).
  assert (G4 : find_label (LN 4) es = Found (MInts [1; 2])) by (unfold es; destruct (zeros i); reflexivity).
  assert (G5 : after (LN 4) es = Some (MInt 6)) by (unfold es; destruct (zeros i); reflexivity).
  assert (G6 : find_label (LN (-2)) es = Found (MBytes pk)) by (unfold es; destruct (zeros i); reflexivity).
  assert (G7 : find_label (LN (-4)) es = Found (MBytes (firstn 32 sk))) by (unfold es; destruct (zeros i); reflexivity).
  rewrite G1, G2, G4, G5, G6, G7. rewrite E1, (F32 pk Lp).
  rewrite skipn_app, skipn_all2, firstn_length by (rewrite firstn_length; lia). replace (32 - Nat.min 32 (length sk0))%nat with 0%nat by lia.
  cbn [skipn app]. rewrite <- Hsp at 1. rewrite firstn_skipn. destruct (zeros i); [reflexivity|]. rewrite (F32 i Hi). reflexivity.
Qed.

Section Keys.
  Variable B : box.
  Variable C : crypto.
  Variable A : attr_ops.
  Variable fresh : token.
  Variable fresh_of : list Z -> token.
  Hypothesis HB : sound_box B.

  Lemma save_keys_ok p dir pass nonce i sk pk : ~ all_zero pass -> length nonce = 24%nat -> length i = 32%nat -> length pk = 32%nat ->
    is_dir p dir = true -> writable p dir Npid ->
    exists p' tail w, save_keys B p dir pass nonce i sk pk = (0, p') /\ cwd p' = cwd p /\ is_dir p' = is_dir p /\ root p' = root p /\
      files p' dir Npid = Some (envelope nonce (seal B (enc_map (key_entries i sk pk)) nonce pass) ++ tail, w) /\
      (files p dir Npid = None -> w = false /\ forall d k, (d <> dir \/ k <> Npid) -> files p' d k = files p d k).
  Proof using B HB.
    clear - HB. intros Hz Hn Hi Hp Hd Hw. destruct HB as (_ & _ & _ & Hlen). unfold save_keys. rewrite (zeros_false _ Hz).
    pose proof (key_fits i sk pk Hi Hp) as Hf. unfold np_serializer_write_ed25519, fits.
    destruct (Z.leb_spec (len (enc_map (key_entries i sk pk))) 512); [|lia]. rewrite chdir_ok by exact Hd.
    set (c := seal B (enc_map (key_entries i sk pk)) nonce pass).
    assert (Hc : len c < 65536) by (unfold c; rewrite Hlen; lia).
    destruct (write_encrypted_ok (set_cwd p dir) Npid nonce c Hn Hc Hw) as (p' & tail & w & E & F & Ec & Ed & Er & Hnew).
    rewrite E. exists (set_cwd p' (cwd p)), tail, w. split; [reflexivity|]. split; [reflexivity|]. split; [exact Ed|]. split; [exact Er|].
    split; [exact F|]. intros N. destruct (Hnew N) as (-> & _ & Ho). split; [reflexivity|]. exact Ho.
  Qed.

  Lemma set_cwd_back p d : set_cwd (set_cwd p d) (cwd p) = p.
  Proof. destruct p. reflexivity. Qed.
  Lemma skip_box m n k : skipn (length m) (seal B m n k) = skipn (length m) (seal B m n k).
  Proof. reflexivity. Qed.

  Lemma load_reads q dir bs w nonce c tail i0 pass u : ~ all_zero pass -> is_dir q dir = true -> length nonce = 24%nat -> len c <= 512 ->
    files q dir Npid = Some (bs, w) -> bs = envelope nonce c ++ tail ->
    np_identity_load_secretkey B C A fresh_of q dir i0 pass u =
    match unseal B c nonce pass with
    | None => Ok (2, q, i0, u)
    | Some m =>
        match np_serializer_read_ed25519 (m ++ skipn (length m) c) i0 (u_secret_key u) (u_public_key u) with
        | None => Ok (2, q, i0, u)
        | Some (i, sk, pk) =>
            obind (np_sign_identity_self C A fresh_of (with_keys u sk pk)) (fun o =>
              Ok (match o with Some t2 => (0, q, i, t2) | None => (5, q, i, with_keys u sk pk) end))
        end
    end.
  Proof.
    intros Hz Hd Hn Hc F ->. unfold np_identity_load_secretkey. rewrite (zeros_false _ Hz), chdir_ok by exact Hd.
    unfold read_encrypted, here. change (files (set_cwd q dir) (cwd (set_cwd q dir)) Npid) with (files q dir Npid). rewrite F.
    assert (Lb : len c <= len (envelope nonce c ++ tail)).
    { rewrite app_length, Nat2Z.inj_add. pose proof (envelope_length nonce c Hn). lia. }
    rewrite (envelope_read nonce c tail _ Hn ltac:(lia) Lb).
    destruct (Z.ltb_spec 512 (len c)); [lia|]. rewrite set_cwd_back. reflexivity.
  Qed.
End Keys.

(** * What is read comes from the file *)
Lemma split_at_app_eq n bs a r : split_at n bs = Some (a, r) -> bs = a ++ r.
Proof. unfold split_at. destruct (n <=? length bs)%nat; [|discriminate]. intros E. injection E as <- <-. symmetry. apply firstn_skipn. Qed.
Lemma get_head_suffix bs m i a r : get_head bs = Some (m, i, a, r) -> exists p, bs = p ++ r.
Proof.
  unfold get_head. destruct bs as [|b bs]; [discriminate|].
  assert (H : forall n, match split_at n bs with Some (a0, rest') => Some (b / 32, b mod 32, unbe a0 0, rest') | None => None end = Some (m, i, a, r) ->
                   exists p, b :: bs = p ++ r).
  { intros n E. destruct (split_at n bs) as [[x y]|] eqn:Es; [|discriminate]. injection E as _ _ _ <-.
    apply split_at_app_eq in Es. exists (b :: x). cbn. f_equal. exact Es. }
  cbv zeta. destruct (b mod 32 <? 24); [intros E; injection E as _ _ _ <-; exists [b]; reflexivity|].
  destruct (b mod 32 =? 24); [apply H|]. destruct (b mod 32 =? 25); [apply H|]. destruct (b mod 32 =? 26); [apply H|].
  destruct (b mod 32 =? 27); [apply H|discriminate].
Qed.
Definition piece (i : item) : list Z := match i with IBytes b => b | IText b => b | _ => [] end.
Lemma get_untagged_suffix m i a bs it r : get_untagged m i a bs = Some (it, r) -> exists p, bs = p ++ piece it ++ r.
Proof.
  unfold get_untagged. intros E.
  repeat match type of E with
         | (if ?c then _ else _) = _ => destruct c
         | match split_at ?n bs with _ => _ end = _ => destruct (split_at n bs) as [[x y]|] eqn:Es
         end; try discriminate E; injection E as <- <-;
  try (exists []; reflexivity);
  try (apply split_at_app_eq in Es; exists []; exact Es);
  try (destruct (a <=? int64_max); exists []; reflexivity).
Qed.
Lemma get_next_suffix n : forall acc bs tags it r, get_next n acc bs = Some (tags, it, r) -> exists p, bs = p ++ piece it ++ r.
Proof.
  induction n as [|n IH]; intros acc bs tags it r; cbn [get_next]; [discriminate|].
  destruct (get_head bs) as [[[[m i] a] rest]|] eqn:E; [|discriminate]. apply get_head_suffix in E. destruct E as (p & ->).
  destruct (m =? 6).
  - intros H. apply IH in H. destruct H as (p' & ->). exists (p ++ p'). rewrite <- app_assoc. reflexivity.
  - destruct (get_untagged m i a rest) as [[i' r']|] eqn:E; [|discriminate]. intros H. injection H as <- <- <-.
    apply get_untagged_suffix in E. destruct E as (p' & ->). exists (p ++ p'). rewrite <- app_assoc. reflexivity.
Qed.
Lemma next_suffix bs tags it r : next bs = Some (tags, it, r) -> exists p, bs = p ++ piece it ++ r.
Proof. apply get_next_suffix. Qed.
Lemma next_suffix0 bs tags it r : next bs = Some (tags, it, r) -> exists p, bs = p ++ r.
Proof. intros H. apply next_suffix in H. destruct H as (p & ->). exists (p ++ piece it). rewrite app_assoc. reflexivity. Qed.
Lemma suffix_trans (a b c : list Z) : (exists p, a = p ++ b) -> (exists p, b = p ++ c) -> exists p, a = p ++ c.
Proof. intros (p & ->) (q & ->). exists (p ++ q). apply app_assoc. Qed.
Lemma read_ints_suffix n : forall bs l r, read_ints n bs = Some (l, r) -> exists p, bs = p ++ r.
Proof.
  induction n as [|n IH]; intros bs l r; cbn [read_ints].
  - intros E. injection E as _ <-. exists []. reflexivity.
  - destruct (next bs) as [[[tg it] r1]|] eqn:En; [|discriminate]. destruct it; try discriminate.
    destruct (read_ints n r1) as [[l' r']|] eqn:E; [|discriminate]. intros H. injection H as _ <-.
    apply IH in E. apply next_suffix0 in En. eapply suffix_trans; eassumption.
Qed.
Lemma read_val_suffix bs v r : read_val bs = Some (v, r) -> exists p, bs = p ++ r.
Proof.
  unfold read_val. destruct (next bs) as [[[tg it] r1]|] eqn:En; [|discriminate]. apply next_suffix0 in En.
  destruct it; try discriminate; try (intros E; injection E as _ <-; exact En).
  destruct (n <=? Z.of_nat (length r1)); [|discriminate].
  destruct (read_ints (Z.to_nat n) r1) as [[l r']|] eqn:E; [|discriminate]. intros H. injection H as _ <-.
  apply read_ints_suffix in E. eapply suffix_trans; eassumption.
Qed.
Lemma read_label_suffix bs v r : read_label bs = Some (v, r) -> exists p, bs = p ++ r.
Proof.
  unfold read_label. destruct (next bs) as [[[tg it] r1]|] eqn:En; [|discriminate]. apply next_suffix0 in En.
  destruct it; try discriminate; intros E; injection E as _ <-; exact En.
Qed.
Lemma read_entries_suffix n : forall bs es r, read_entries n bs = Some (es, r) -> exists p, bs = p ++ r.
Proof.
  induction n as [|n IH]; intros bs es r; cbn [read_entries].
  - intros E. injection E as _ <-. exists []. reflexivity.
  - destruct (read_label bs) as [[l r1]|] eqn:E1; [|discriminate]. destruct (read_val r1) as [[v r2]|] eqn:E2; [|discriminate].
    destruct (read_entries n r2) as [[es' r3]|] eqn:E3; [|discriminate]. intros H. injection H as _ <-.
    apply read_label_suffix in E1. apply read_val_suffix in E2. apply IH in E3.
    eapply suffix_trans; [exact E1|]. eapply suffix_trans; eassumption.
Qed.
Lemma read_map_suffix bs tg es r : read_map bs = Some (tg, es, r) -> exists p, bs = p ++ r.
Proof.
  unfold read_map. destruct (next bs) as [[[tg' it] r1]|] eqn:En; [|discriminate]. apply next_suffix0 in En. destruct it; try discriminate.
  destruct (n <=? Z.of_nat (length r1)); [|discriminate].
  destruct (read_entries (Z.to_nat n) r1) as [[es' r']|] eqn:E; [|discriminate]. intros H. injection H as _ _ <-.
  apply read_entries_suffix in E. eapply suffix_trans; eassumption.
Qed.
Lemma read_encrypted_piece bs cb nonce c : np_serializer_read_encrypted bs cb = Some (nonce, c) -> holds_piece bs c.
Proof.
  unfold np_serializer_read_encrypted. destruct (next bs) as [[[tg it] r1]|] eqn:E1; [|discriminate]. apply next_suffix0 in E1.
  destruct it; try discriminate. destruct ((hd 0 tg =? 16) && (n =? 3)); [|discriminate].
  destruct (next r1) as [[[tg2 it2] r2]|] eqn:E2; [|discriminate]. apply next_suffix0 in E2.
  intros H.
  assert (H' : match read_map r2 with
            | Some (_, es, r3) =>
                match find_label (LN 6) es with
                | Found (MBytes nonce) =>
                    if (length nonce =? 24)%nat then
                      match next r3 with
                      | Some (_, IBytes c, _) => if Z.of_nat (length c) <=? cb then Some (nonce, c) else None
                      | _ => None
                      end
                    else None
                | _ => None
                end
            | None => None
            end = Some (nonce, c)) by (destruct it2; try discriminate H; exact H).
  clear H. destruct (read_map r2) as [[[tg3 es] r3]|] eqn:E3; [|discriminate]. apply read_map_suffix in E3.
  destruct (find_label (LN 6) es) as [[ | | | | ] | | ]; try discriminate. destruct (length b =? 24)%nat; [|discriminate].
  destruct (next r3) as [[[tg4 it4] r4]|] eqn:E4; [|discriminate]. apply next_suffix in E4. destruct it4; try discriminate.
  destruct (Z.of_nat (length b0) <=? cb); [|discriminate]. injection H' as _ <-. cbn [piece] in E4.
  destruct (suffix_trans _ _ _ E1 (suffix_trans _ _ _ E2 E3)) as (p & ->). destruct E4 as (q & ->).
  exists (p ++ q), r4. rewrite <- app_assoc. reflexivity.
Qed.

(** * Tokens *)
Lemma head_small m a : 0 <= a < 256 -> (length (head m a) <= 2)%nat.
Proof. intros H. unfold head. destruct (a <? 24); [cbn; lia|]. destruct (Z.ltb_spec a 256); [cbn; lia|lia]. Qed.
Lemma head_mid m a : 0 <= a < 65536 -> (length (head m a) <= 3)%nat.
Proof. intros H. unfold head. destruct (a <? 24); [cbn; lia|]. destruct (a <? 256); [cbn; lia|]. destruct (Z.ltb_spec a 65536); [cbn; lia|lia]. Qed.
Lemma enc_bytes_small b : len b < 256 -> len (enc_bytes b) <= 2 + len b.
Proof. intros H. unfold enc_bytes. rewrite app_length. pose proof (head_small 2 (len b) ltac:(lia)). lia. Qed.
Lemma enc_bytes_mid b : len b < 65536 -> len (enc_bytes b) <= 3 + len b.
Proof. intros H. unfold enc_bytes. rewrite app_length. pose proof (head_mid 2 (len b) ltac:(lia)). lia. Qed.
Lemma enc_text_small b : len b < 256 -> len (enc_text b) <= 2 + len b.
Proof. intros H. unfold enc_text. rewrite app_length. pose proof (head_small 3 (len b) ltac:(lia)). lia. Qed.
Lemma enc_double_length d : length (enc_double d) = 9%nat.
Proof. reflexivity. Qed.

Lemma opt_id_len l id : length id = 32%nat -> len (flat_map enc_entry (opt_id l id)) <= len (enc_label l) + 34.
Proof.
  intros H. unfold opt_id. destruct (zeros id); [cbn [flat_map length]; lia|]. cbn [flat_map]. rewrite app_nil_r. unfold enc_entry. cbn [fst snd enc_val].
  rewrite app_length. pose proof (enc_bytes_small id ltac:(lia)). lia.
Qed.
Lemma entry_len l v : len (flat_map enc_entry [(l, v)]) = len (enc_label l) + len (enc_val v).
Proof. cbn [flat_map]. rewrite app_nil_r. unfold enc_entry. cbn [fst snd]. rewrite app_length. lia. Qed.
Lemma flat_cons e es : len (flat_map enc_entry (e :: es)) = len (enc_label (fst e)) + len (enc_val (snd e)) + len (flat_map enc_entry es).
Proof. cbn [flat_map]. unfold enc_entry at 1. rewrite !app_length. lia. Qed.
Lemma opt_id_wf l id : wf_label l -> length id = 32%nat -> Forall wf_entry (opt_id l id).
Proof. intros Hl H. unfold opt_id. destruct (zeros id); constructor; [|constructor]. split; cbn [fst snd wf_val]; [exact Hl|unfold short; lia]. Qed.
Lemma opt_id_count l id : (length (opt_id l id) <= 1)%nat.
Proof. unfold opt_id. destruct (zeros id); cbn; lia. Qed.

Section Tokens.
  Variable A : attr_ops.
  Variable t : user_token.
  Variable n : Z.
  Hypothesis HT : sized_token A t n.

  Lemma subject_len : len (cstr 255 (u_subject t)) <= 255.
  Proof. pose proof (cstr_length 255 (u_subject t)). lia. Qed.
  Lemma attr_len : len (firstn (Z.to_nat n) (u_attributes t)) = n.
  Proof. destruct HT as (_ & _ & _ & _ & _ & _ & _ & _ & Ha & _ & _ & _ & _ & _ & Hn). rewrite firstn_length. lia. Qed.

  Lemma token_entries_wf : Forall wf_entry (token_entries n t) /\ (length (token_entries n t) <= 10)%nat.
  Proof.
    pose proof subject_len as Hs. pose proof attr_len as Ha.
    destruct HT as ((L1 & _) & (L2 & _) & (L3 & _) & (L4 & _) & (L5 & _) & (L6 & _) & L7 & (L8 & _) & L9 & (L10 & _) & D1 & D2 & D3 & _ & Hn).
    change (2 ^ 64) with 18446744073709551616 in *. unfold token_entries. split.
    - rewrite !Forall_app. split; [apply opt_id_wf; [cbn; unfold int64; lia|exact L3]|].
      split; [constructor; [|constructor]; split; cbn [fst snd wf_label wf_val]; unfold int64, short; lia|].
      split; [apply opt_id_wf; [cbn; unfold int64; lia|exact L5]|].
      split; [repeat apply Forall_cons; try apply Forall_nil; split; cbn [fst snd wf_label wf_val]; unfold int64, short; lia|].
      split; [apply opt_id_wf; [cbn; unfold short; cbn; lia|exact L4]|].
      repeat apply Forall_cons; try apply Forall_nil; split; cbn [fst snd wf_label wf_val]; unfold short; try (cbn [length t_attr t_pk]; lia); lia.
    - rewrite !app_length. pose proof (opt_id_count (LN 1) (u_issuer t)). pose proof (opt_id_count (LN 3) (u_audience t)).
      pose proof (opt_id_count (LS t_realm) (u_realm t)). cbn [length]. lia.
  Qed.
  Lemma sign_entries_wf : Forall wf_entry (sign_entries t).
  Proof.
    destruct HT as (_ & _ & _ & _ & _ & _ & _ & (L8 & _) & _ & (L10 & _) & _). unfold sign_entries.
    repeat apply Forall_cons; try apply Forall_nil; split; cbn [fst snd wf_label wf_val]; unfold int64, short; lia.
  Qed.

  Lemma token_fits : len (enc_tag 98 ++ enc_map (token_entries n t) ++ enc_map (sign_entries t)) <= 10848.
  Proof.
    pose proof subject_len as Hs. pose proof attr_len as Ha. destruct token_entries_wf as (_ & Hc).
    destruct HT as ((L1 & _) & (L2 & _) & (L3 & _) & (L4 & _) & (L5 & _) & (L6 & _) & L7 & (L8 & _) & L9 & (L10 & _) & D1 & D2 & D3 & _ & Hn).
    rewrite !app_length. unfold enc_map. rewrite !app_length.
    assert (T1 : length (enc_tag 98) = 2%nat) by reflexivity.
    assert (T2 : length (head 5 (len (token_entries n t))) = 1%nat).
    { unfold head. destruct (Z.ltb_spec (len (token_entries n t)) 24); [reflexivity|lia]. }
    assert (T3 : length (head 5 (len (sign_entries t))) = 1%nat) by reflexivity.
    assert (T4 : len (flat_map enc_entry (sign_entries t)) <= 134).
    { unfold sign_entries. rewrite !flat_cons. cbn [fst snd enc_val flat_map]. pose proof (enc_bytes_small (u_signature t) ltac:(lia)).
      pose proof (enc_bytes_small (u_attributes_signature t) ltac:(lia)). change (len (enc_label (LN 1))) with 1. change (len (enc_label (LN 2))) with 1. cbn [length]. lia. }
    assert (T5 : len (flat_map enc_entry (token_entries n t)) <= 10710).
    { unfold token_entries. rewrite !flat_map_app, !app_length, !Nat2Z.inj_add. rewrite !flat_cons. cbn [fst snd enc_val flat_map]. rewrite !enc_double_length.
      pose proof (opt_id_len (LN 1) (u_issuer t) L3). pose proof (opt_id_len (LN 3) (u_audience t) L5). pose proof (opt_id_len (LS t_realm) (u_realm t) L4).
      assert (Hu : len (enc_bytes (u_uuid t)) = 17).
      { unfold enc_bytes. rewrite app_length, L1. reflexivity. }
      pose proof (enc_bytes_small (u_public_key t) ltac:(lia)). pose proof (enc_text_small (cstr 255 (u_subject t)) ltac:(lia)).
      pose proof (enc_bytes_mid (firstn (Z.to_nat n) (u_attributes t)) ltac:(lia)).
      change (len (enc_label (LN 1))) with 1 in *. change (len (enc_label (LN 2))) with 1. change (len (enc_label (LN 3))) with 1 in *.
      change (len (enc_label (LN 4))) with 1. change (len (enc_label (LN 5))) with 1. change (len (enc_label (LN 6))) with 1. change (len (enc_label (LN 7))) with 1.
      change (len (enc_label (LS t_realm))) with 9 in *. change (len (enc_label (LS t_attr))) with 8. change (len (enc_label (LS t_pk))) with 6.
      change (length (@nil Z)) with 0%nat. lia. }
    lia.
  Qed.

  Lemma zeros_32 l : length l = 32%nat -> zeros l = true -> l = zero_id.
  Proof.
    intros H Z. apply zeros_spec in Z. unfold zero_id. rewrite <- H. clear H. induction Z as [|b l E _ IH]; [reflexivity|]. cbn. rewrite E. f_equal. exact IH.
  Qed.
  Lemma skipn_repeat (x : Z) k m : skipn k (repeat x m) = repeat x (m - k).
  Proof. revert m. induction k; intros [|m]; cbn; auto. Qed.

  Definition restored : user_token :=
    mkUser (u_uuid t) (strncpy 255 (u_subject t)) (u_issuer t) (u_realm t) (u_audience t) (u_issued_at t) (u_not_before t) (u_expires_at t)
           (u_public_key t) (repeat 0 64) (u_signature t)
           (firstn (Z.to_nat n) (u_attributes t) ++ skipn (Z.to_nat n) (repeat 0 (Z.to_nat attributes_bytes))) (u_attributes_signature t).

  Lemma token_read rest : np_serializer_read_nptoken ((enc_tag 98 ++ enc_map (token_entries n t) ++ enc_map (sign_entries t)) ++ rest) empty_user = Some restored.
  Proof.
    pose proof token_entries_wf as (Hw & Hc). pose proof sign_entries_wf as Hw2. pose proof subject_len as Hs. pose proof attr_len as Ha.
    destruct HT as ((L1 & _) & (L2 & _) & (L3 & _) & (L4 & _) & (L5 & _) & (L6 & _) & L7 & (L8 & _) & L9 & (L10 & _) & D1 & D2 & D3 & _ & Hn).
    unfold np_serializer_read_nptoken. rewrite <- !app_assoc. rewrite read_map_tag by (first [assumption|lia]).
    cbn [hd]. change (98 =? 98) with true. cbv iota.
    set (es := token_entries n t).
    set (I := zeros (u_issuer t)). set (R := zeros (u_realm t)). set (U := zeros (u_audience t)).
    assert (G : find_label (LN 2) es = Found (MText (cstr 255 (u_subject t))) /\ find_label (LN 7) es = Found (MBytes (u_uuid t)) /\
                find_label (LS t_attr) es = Found (MBytes (firstn (Z.to_nat n) (u_attributes t))) /\ find_label (LS t_pk) es = Found (MBytes (u_public_key t)) /\
                find_label (LN 1) es = (if I then NotFound else Found (MBytes (u_issuer t))) /\
                find_label (LN 3) es = (if U then NotFound else Found (MBytes (u_audience t))) /\
                find_label (LS t_realm) es = (if R then NotFound else Found (MBytes (u_realm t))) /\
                find_label (LN 4) es = Found (MDouble (u_issued_at t)) /\ find_label (LN 5) es = Found (MDouble (u_not_before t)) /\
                find_label (LN 6) es = Found (MDouble (u_expires_at t))).
    { unfold es, token_entries, opt_id. fold I R U. clear. unfold find_label. destruct I, R, U; repeat split; reflexivity. }
    destruct G as (G2 & G7 & Ga & Gp & G1 & G3 & Gr & G4 & G5 & G6).
    unfold id_or, dbl_or. rewrite G2, G7, Ga, Gp, G1, G3, Gr, G4, G5, G6. rewrite L6. cbn [Nat.eqb].
    rewrite read_map_enc by (first [exact Hw2|cbn; lia]).
    change (find_label (LN 1) (sign_entries t)) with (Found (MBytes (u_signature t))).
    change (find_label (LN 2) (sign_entries t)) with (Found (MBytes (u_attributes_signature t))). cbv iota. rewrite L8, L10. cbn [Nat.eqb andb].
    assert (F32 : forall l : list Z, length l = 32%nat -> firstn 32 l = l) by (intros l <-; apply firstn_all).
    assert (S1 : over (u_subject empty_user) (firstn 255 (cstr 255 (u_subject t))) = strncpy 255 (u_subject t)).
    { rewrite firstn_all2 by lia. unfold over, strncpy. cbn [u_subject empty_user]. cbv zeta. rewrite skipn_repeat. reflexivity. }
    rewrite S1. unfold restored. f_equal. rewrite (firstn_all2 (u_uuid t)) by lia.
    f_equal.
    - destruct I eqn:EI; [symmetry; apply zeros_32; assumption|apply F32, L3].
    - destruct R eqn:EI; [symmetry; apply zeros_32; assumption|apply F32, L4].
    - destruct U eqn:EI; [symmetry; apply zeros_32; assumption|apply F32, L5].
    - unfold over. f_equal. replace (length (firstn (Z.to_nat n) (u_attributes t))) with (Z.to_nat n) by lia. reflexivity.
  Qed.

  Lemma fingerprint_fresh C f g : np_token_fingerprint C f t = np_token_fingerprint C g t.
  Proof.
    destruct HT as (_ & _ & H3 & H4 & H5 & _). unfold np_token_fingerprint, fingerprint, get_hash, hash_input, user4aaatoken.
    cbn [Token_Model.uuid Token_Model.realm Token_Model.issuer Token_Model.subject Token_Model.audience Token_Model.pk Token_Model.expires_at Token_Model.issued_at Token_Model.not_before Token_Model.signature].
    rewrite !cstr_str_of_id by (first [lia | assumption]). reflexivity.
  Qed.
  Lemma fingerprint_restored C f : np_token_fingerprint C f restored = np_token_fingerprint C f t.
  Proof.
    unfold np_token_fingerprint, fingerprint, get_hash, hash_input, user4aaatoken, restored.
    cbn [Token_Model.uuid Token_Model.realm Token_Model.issuer Token_Model.subject Token_Model.audience Token_Model.pk Token_Model.expires_at Token_Model.issued_at Token_Model.not_before Token_Model.signature
         u_uuid u_realm u_issuer u_subject u_audience u_public_key u_expires_at u_issued_at u_not_before u_signature].
    rewrite !(cstr_strncpy 255 255) by lia. reflexivity.
  Qed.
  Lemma restored_public : same_public n t restored.
  Proof.
    pose proof attr_len as Ha. unfold same_public, restored.
    cbn [u_uuid u_realm u_issuer u_subject u_audience u_public_key u_expires_at u_issued_at u_not_before u_signature u_attributes u_attributes_signature].
    repeat split; try reflexivity.
    - apply cstr_strncpy. lia.
    - rewrite firstn_app. rewrite firstn_firstn. replace (Nat.min (Z.to_nat n) (Z.to_nat n)) with (Z.to_nat n) by lia.
      replace (Z.to_nat n - length (firstn (Z.to_nat n) (u_attributes t)))%nat with 0%nat by lia. cbn [firstn]. apply app_nil_r.
  Qed.
End Tokens.
