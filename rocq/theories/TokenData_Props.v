(** Tokens whose attributes are data blocks: the functions of Data_Model in the place of the attribute operations that
    the token model takes as a parameter. *)
From Verif Require Import Base Data_Model Data_Spec Data_Proofs.
From Verif Require Import Dhkey_Model Dhkey_Spec Dhkey_Proofs Token_Model Token_Spec Token_Proofs Token_Props.

(** include/neuropil_data.h:54-60: the union as the token code looks at it.  The pointer of a string has some low bits. *)
Definition seen (v : datum) : dvalue :=
  match v with
  | Data_Model.DBin b => DBin b
  | Data_Model.DUint z => DUint z
  | Data_Model.DInt z => DOther (u32 z)
  | Data_Model.DStr _ => DOther 0
  end.
(** np_aaatoken.c:590-600, 719-722, 1029-1045: np_get_data_size, np_get_data and np_set_data on the attributes of a token.
    Calls that do not return are [None]. *)
Definition block_ops : attr_ops := mkAttr
  (fun a => match np_get_data_size a with (np_data_ok, n) => Some n | _ => None end)
  (fun a k => match np_get_data a k with Done (np_data_ok, Some v) => Some (seen v) | _ => None end)
  (fun a k v => match v with
    | DBin b => match np_set_data a k (Data_Model.DBin b) with Done (np_data_ok, a') => Some a' | _ => None end
    | _ => None end).

(** An attribute block a user made: initialised with np_init_datablock, then written to *)
Definition written_block (a : list Z) : Prop :=
  exists b0 b1 ws rs, length b0 = Z.to_nat 10240 /\ np_init_datablock b0 10240 = Done (np_data_ok, b1) /\
    Forall good_entry ws /\ few_keys ws /\ writes ws b1 = Done (rs, a).

Lemma written_inv a : written_block a -> exists l, Inv 10240 l a.
Proof.
  intros (b0 & b1 & ws & rs & L & E1 & G & F & E2).
  destruct (init_step b0 10240 ltac:(lia) ltac:(rewrite L; lia)) as (b1' & E1' & I1 & L1 & K1).
  assert (b1' = b1) by (rewrite E1 in E1'; injection E1'; auto). subst b1'.
  assert (HU : incl (map fst ws) (nodup (list_eq_dec Z.eq_dec) (map fst ws))) by (intros q Hq; apply nodup_In; exact Hq).
  destruct (writes_inv 10240 _ F ws [] b1 I1 G HU (incl_nil_l _)) as (b & E3 & I2 & _).
  assert (b = a) by (rewrite E2 in E3; injection E3; auto). subst b. eauto.
Qed.

Lemma few_objects l : Z.of_nat (length l) <= bytes_needed l - 21.
Proof.
  rewrite needed_flat. induction l as [|[k v] l IH]; [cbn; lia|]. rewrite flat_cons, app_length. cbn [length].
  assert (1 <= length (encode k v))%nat.
  { unfold encode, pieces. cbn [app concat]. rewrite app_length. pose proof (head_len 3 (Z.of_nat (length k)) ltac:(lia)) as H.
    assert (0 <= arg_bytes (Z.of_nat (length k))).
    { unfold arg_bytes. repeat match goal with |- context [if ?x then _ else _] => destruct x end; lia. }
    lia. }
  lia.
Qed.
Lemma put_length k v l : (length (put k v l) <= S (length l))%nat.
Proof. induction l as [|[q w] l IH]; cbn [put]; [cbn; lia|]. destruct (list_eq_dec Z.eq_dec q k); cbn [length]; lia. Qed.

Lemma hex_key id : bytes32 id -> good_key (bin2hex id).
Proof.
  intros H. pose proof (hex_len id H) as L. split; [lia|]. split; [lia|]. destruct H as [_ F].
  eapply Forall_impl; [|exact (bin2hex_lower id F)]. unfold is_lower_hex. intros. lia.
Qed.

Lemma block_set l a id b : Inv 10240 l a -> bytes32 id -> length b = 96%nat ->
  (bytes_needed (put (bin2hex id) (Data_Model.DBin b) l) <= 10240 -> exists a', ad_set block_ops a (bin2hex id) (DBin b) = Some a' /\
     Inv 10240 (put (bin2hex id) (Data_Model.DBin b) l) a') /\
  (10240 < bytes_needed (put (bin2hex id) (Data_Model.DBin b) l) -> ad_set block_ops a (bin2hex id) (DBin b) = None).
Proof.
  intros Hi H L. assert (Gv : good_value (Data_Model.DBin b)) by (cbn; lia).
  destruct (set_step 10240 l a (bin2hex id) (Data_Model.DBin b) Hi (hex_key id H) Gv) as [S1 S2].
  { pose proof (few_objects l). pose proof (put_length (bin2hex id) (Data_Model.DBin b) l). pose proof (inv_fits _ _ _ Hi). lia. }
  cbn [ad_set block_ops]. split.
  - intros R. destruct (S1 R) as (a' & E & J & _). exists a'. rewrite E. auto.
  - intros R. rewrite (S2 R). reflexivity.
Qed.

(** Data blocks keep what tokens store in them. *)
Lemma block_law : attr_law written_block block_ops.
Proof.
  intros a id b a' W H L E. destruct (written_inv a W) as (l & Hi). destruct (block_set l a id b Hi H L) as [S1 S2].
  destruct (Z_le_gt_dec (bytes_needed (put (bin2hex id) (Data_Model.DBin b) l)) 10240) as [R|R]; [|rewrite S2 in E by lia; discriminate].
  destruct (S1 R) as (a2 & E2 & J). rewrite E in E2. injection E2 as <-. cbn [ad_get ad_size block_ops].
  rewrite (get_inv _ _ _ _ J), lookup_put. destruct (list_eq_dec Z.eq_dec (bin2hex id) (bin2hex id)); [|contradiction]. split; [reflexivity|].
  unfold np_get_data_size. rewrite (inv_header _ _ _ J). cbn [h_used]. eexists. split; [reflexivity|]. unfold attributes_bytes. exact R.
Qed.

(** 164 bytes are enough for one issuer signature *)
Lemma put_room k v l : bytes_needed (put k v l) <= bytes_needed l + Z.of_nat (length (encode k v)).
Proof.
  rewrite !needed_flat. induction l as [|[q w] l IH]; cbn [put]; [rewrite flat_one; cbn; lia|].
  destruct (list_eq_dec Z.eq_dec q k); rewrite !flat_cons, !app_length; lia.
Qed.
Lemma room_for_issuer a id b : written_block a -> bytes32 id -> length b = 96%nat -> (exists n, np_get_data_size a = (np_data_ok, n) /\ n <= 10240 - 164) ->
  exists a', ad_set block_ops a (bin2hex id) (DBin b) = Some a'.
Proof.
  intros W H L (n & E & R). destruct (written_inv a W) as (l & Hi). unfold np_get_data_size in E. rewrite (inv_header _ _ _ Hi) in E. cbn [h_used] in E.
  assert (n = bytes_needed l) by (injection E; auto). subst n.
  destruct (block_set l a id b Hi H L) as [S1 _]. destruct S1 as (a' & E' & _); [|eauto].
  pose proof (put_room (bin2hex id) (Data_Model.DBin b) l) as P. rewrite encode_size, L, (hex_len id H) in P.
  change (arg_bytes (Z.of_nat 64)) with 1 in P. change (arg_bytes (Z.of_nat 96)) with 1 in P. lia.
Qed.

(** C37 with attributes in data blocks: an identity signed by its issuer and then by its owner is accepted, whatever
    attributes were written before, as long as 164 bytes are free. *)
Theorem C37_honest_issuer_accepted_with_attributes : forall C fresh f0 f1 f2 me iss id id1,
  correct_scheme C ->
  (forall s, fresh_identity (fresh s) /\ sk (fresh s) = s) -> fresh_identity f1 ->
  private_key_is_set me = true -> pk me = pk_of C (sk me) -> np_token_fingerprint C f2 iss = fingerprint C me -> fingerprint C me <> zero_id ->
  u_public_key id = pk_of C (u_secret_key id) -> forallb (Z.eqb 0) (u_secret_key id) = false ->
  u_issuer id = fingerprint C me -> bytes32 (u_realm id) -> bytes32 (u_audience id) ->
  written_block (u_attributes id) -> (exists n, np_get_data_size (u_attributes id) = (np_data_ok, n) /\ n <= 10240 - 164) ->
  np_sign_identity_other C block_ops f0 me id = Ok id1 ->
  exists id2, np_sign_identity_self C block_ops fresh id1 = Ok (Some id2) /\ np_verify_issuer C block_ops f1 f2 id2 iss = Ok true.
Proof.
  intros C fresh f0 f1 f2 me iss id id1 HC Hf Hf1 Pme Kme Fp Fz Hpk Hsk Hiss H2 H3 W R.
  apply (C37_honest_issuer_accepted C block_ops written_block fresh f0 f1 f2 me iss id id1); auto using block_law.
  apply room_for_issuer; auto.
  - destruct HC as (_ & _ & _ & Hh). apply Hh.
  - destruct HC as (_ & Lp & Ls & _). rewrite app_length, Kme, Lp, Ls. reflexivity.
Qed.

(** FINDING, with attributes in data blocks: everybody can make a token that is accepted as issued by [iss]. *)
Theorem C37_forged_issuer_accepted_with_attributes_refuted : forall C f1 f2 iss attacker_secret subject uuid attributes exp id,
  correct_scheme C -> written_block attributes -> fresh_identity f1 -> np_token_fingerprint C f2 iss <> zero_id ->
  forge C block_ops (np_token_fingerprint C f2 iss) attacker_secret subject uuid attributes exp = Some id ->
  np_verify_issuer C block_ops f1 f2 id iss = Ok true.
Proof. intros. eapply C37_forged_issuer_accepted_refuted; eauto using block_law. Qed.

(** An empty block is such a block *)
Example C37_block_ex : exists a, written_block a /\ np_get_data_size a = (np_data_ok, 21).
Proof.
  destruct (init_step (repeat 0 (Z.to_nat 10240)) 10240 ltac:(lia) ltac:(rewrite repeat_length; lia)) as (b1 & E & I1 & _).
  exists b1. split.
  - exists (repeat 0 (Z.to_nat 10240)), b1, [], []. rewrite repeat_length. split; [reflexivity|]. split; [exact E|]. split; [constructor|].
    split; [unfold few_keys; cbn; lia|reflexivity].
  - unfold np_get_data_size. rewrite (inv_header _ _ _ I1). reflexivity.
Qed.

Print Assumptions C37_honest_issuer_accepted_with_attributes.
Print Assumptions C37_forged_issuer_accepted_with_attributes_refuted.
