(** Reading back what was written: heads of CBOR items. *)
From Verif Require Import Base Cbor_Model.

Lemma be_length n v : length (be n v) = n.
Proof. induction n; cbn [be length]; congruence. Qed.

Lemma be_bytes n v : Forall (fun b => 0 <= b <= 255) (be n v).
Proof. induction n; cbn [be]; constructor; auto. pose proof (Z.mod_pos_bound (v / 256 ^ Z.of_nat n) 256). lia. Qed.

Lemma unbe_app a : forall b acc, unbe (a ++ b) acc = unbe b (unbe a acc).
Proof. induction a; intros; cbn; auto. Qed.

Lemma unbe_be n : forall v acc, unbe (be n v) acc = acc * 256 ^ Z.of_nat n + v mod 256 ^ Z.of_nat n.
Proof.
  induction n as [|n IH]; intros v acc; cbn [be unbe].
  - change (256 ^ Z.of_nat 0) with 1. rewrite Z.mod_1_r. lia.
  - rewrite IH. rewrite Nat2Z.inj_succ, Z.pow_succ_r by lia. set (p := 256 ^ Z.of_nat n).
    assert (0 < p) by (apply Z.pow_pos_nonneg; lia).
    rewrite (Z.mul_comm 256 p), Z.rem_mul_r by lia. lia.
Qed.

Lemma split_at_app a b : split_at (length a) (a ++ b) = Some (a, b).
Proof.
  unfold split_at. rewrite app_length. destruct (Nat.leb_spec (length a) (length a + length b)); [|lia].
  rewrite firstn_app, Nat.sub_diag, firstn_all, skipn_app, skipn_all, Nat.sub_diag. cbn. rewrite app_nil_r. reflexivity.
Qed.
Lemma split_at_be n v b : split_at n (be n v ++ b) = Some (be n v, b).
Proof. pose proof (split_at_app (be n v) b) as H. rewrite be_length in H. exact H. Qed.

Definition info_of (a : Z) : Z := if a <? 24 then a else if a <? 256 then 24 else if a <? 65536 then 25 else if a <? 4294967296 then 26 else 27.

Lemma major_byte m i : 0 <= i < 32 -> (m * 32 + i) / 32 = m /\ (m * 32 + i) mod 32 = i.
Proof. intros. split; Z.to_euclidean_division_equations; lia. Qed.

Lemma get_head_head m a rest : 0 <= m -> 0 <= a < 18446744073709551616 ->
  get_head (head m a ++ rest) = Some (m, info_of a, a, rest).
Proof.
  intros Hm Ha. unfold head, info_of.
  destruct (Z.ltb_spec a 24).
  { cbn [app get_head]. destruct (major_byte m a) as [E1 E2]; [lia|]. rewrite E1, E2. destruct (Z.ltb_spec a 24); [reflexivity|lia]. }
  destruct (Z.ltb_spec a 256).
  { rewrite <- app_comm_cons. cbn [get_head]. destruct (major_byte m 24) as [E1 E2]; [lia|]. rewrite E1, E2.
    change (24 <? 24) with false. change (24 =? 24) with true. cbv iota. rewrite split_at_be, unbe_be. change (256 ^ Z.of_nat 1) with 256.
    rewrite Z.mod_small by lia. do 3 f_equal. }
  destruct (Z.ltb_spec a 65536).
  { rewrite <- app_comm_cons. cbn [get_head]. destruct (major_byte m 25) as [E1 E2]; [lia|]. rewrite E1, E2.
    change (25 <? 24) with false. change (25 =? 24) with false. change (25 =? 25) with true. cbv iota.
    rewrite split_at_be, unbe_be. change (256 ^ Z.of_nat 2) with 65536. rewrite Z.mod_small by lia. do 3 f_equal. }
  destruct (Z.ltb_spec a 4294967296).
  { rewrite <- app_comm_cons. cbn [get_head]. destruct (major_byte m 26) as [E1 E2]; [lia|]. rewrite E1, E2.
    change (26 <? 24) with false. change (26 =? 24) with false. change (26 =? 25) with false. change (26 =? 26) with true. cbv iota.
    rewrite split_at_be, unbe_be. change (256 ^ Z.of_nat 4) with 4294967296. rewrite Z.mod_small by lia. do 3 f_equal. }
  rewrite <- app_comm_cons. cbn [get_head]. destruct (major_byte m 27) as [E1 E2]; [lia|]. rewrite E1, E2.
  change (27 <? 24) with false. change (27 =? 24) with false. change (27 =? 25) with false. change (27 =? 26) with false.
  change (27 =? 27) with true. cbv iota.
  rewrite split_at_be, unbe_be. change (256 ^ Z.of_nat 8) with 18446744073709551616. rewrite Z.mod_small by lia. do 3 f_equal.
Qed.

Lemma get_head_head4 m a rest : 0 <= m -> 0 <= a < 4294967296 -> get_head (head4 m a ++ rest) = Some (m, 26, a, rest).
Proof.
  intros Hm Ha. unfold head4. destruct (Z.ltb_spec a 4294967296); [|lia].
  rewrite <- app_comm_cons. cbn [get_head]. destruct (major_byte m 26) as [E1 E2]; [lia|]. rewrite E1, E2.
  change (26 <? 24) with false. change (26 =? 24) with false. change (26 =? 25) with false. change (26 =? 26) with true. cbv iota.
  rewrite split_at_be, unbe_be. change (256 ^ Z.of_nat 4) with 4294967296. rewrite Z.mod_small by lia. do 3 f_equal.
Qed.

Lemma head_length m a : 0 <= a ->
  Z.of_nat (length (head m a)) = 1 + (if a <? 24 then 0 else if a <? 256 then 1 else if a <? 65536 then 2 else if a <? 4294967296 then 4 else 8).
Proof.
  intros Ha. unfold head. destruct (a <? 24); [reflexivity|]. destruct (a <? 256); [reflexivity|].
  destruct (a <? 65536); [reflexivity|]. destruct (a <? 4294967296); reflexivity.
Qed.
Lemma head_nonempty m a : (1 <= length (head m a))%nat.
Proof.
  unfold head. destruct (a <? 24); [cbn; lia|]. destruct (a <? 256); [cbn; lia|].
  destruct (a <? 65536); [cbn; lia|]. destruct (a <? 4294967296); cbn; lia.
Qed.
Lemma head4_length m a : 0 <= a < 4294967296 -> length (head4 m a) = 5%nat.
Proof. intros. unfold head4. destruct (Z.ltb_spec a 4294967296); [reflexivity|lia]. Qed.

Lemma head_bytes m a : 0 <= m < 8 -> 0 <= a -> Forall (fun b => 0 <= b <= 255) (head m a).
Proof.
  intros Hm Ha. unfold head. destruct (Z.ltb_spec a 24); [constructor; [lia|constructor]|].
  destruct (a <? 256); [constructor; [lia|apply be_bytes]|]. destruct (a <? 65536); [constructor; [lia|apply be_bytes]|].
  destruct (a <? 4294967296); (constructor; [lia|apply be_bytes]).
Qed.

(** ** Items *)
Lemma get_next_tag n tags t rest : 0 <= t < 18446744073709551616 ->
  get_next (S n) tags (enc_tag t ++ rest) = get_next n (t :: tags) rest.
Proof. intros. cbn [get_next]. unfold enc_tag. rewrite get_head_head by lia. reflexivity. Qed.

Lemma get_next_head n tags m a rest : 0 <= m < 6 -> 0 <= a < 18446744073709551616 ->
  get_next (S n) tags (head m a ++ rest) =
  match get_untagged m (info_of a) a rest with Some (i, rest') => Some (tags, i, rest') | None => None end.
Proof. intros. cbn [get_next]. rewrite get_head_head by lia. destruct (Z.eqb_spec m 6); [lia|reflexivity]. Qed.

(** What the rest of this development needs: a suffix in normal form *)
Definition reads (bs : list Z) (tags : list Z) (i : item) : Prop :=
  forall n acc rest, (length bs <= n)%nat -> get_next n acc (bs ++ rest) = Some (tags ++ acc, i, rest).

Lemma reads_next bs tags i rest : reads bs tags i -> next (bs ++ rest) = Some (tags, i, rest).
Proof. intros H. unfold next. rewrite H by (rewrite app_length; lia). rewrite app_nil_r. reflexivity. Qed.

Lemma reads_tag t bs tags i : 0 <= t < 18446744073709551616 -> reads bs tags i -> reads (enc_tag t ++ bs) (tags ++ [t]) i.
Proof.
  intros Ht H n acc rest L. rewrite app_length in L. pose proof (head_nonempty 6 t). unfold enc_tag in L.
  destruct n as [|n]; [lia|]. rewrite <- app_assoc. rewrite get_next_tag by exact Ht. rewrite H by lia.
  rewrite <- app_assoc. reflexivity.
Qed.

Lemma reads_int z : -9223372036854775808 <= z <= 9223372036854775807 -> reads (enc_int z) [] (IInt z).
Proof.
  intros Hz n acc rest L. unfold enc_int in *. destruct (Z.ltb_spec z 0).
  - pose proof (head_nonempty 1 (-1 - z)). destruct n as [|n]; [lia|]. rewrite get_next_head by lia.
    unfold get_untagged. change (1 =? 0) with false. change (1 =? 1) with true. cbv iota. unfold int64_max.
    destruct (Z.leb_spec (-1 - z) 9223372036854775807); [|lia]. replace (-1 - (-1 - z)) with z by lia. reflexivity.
  - pose proof (head_nonempty 0 z). destruct n as [|n]; [lia|]. rewrite get_next_head by lia.
    unfold get_untagged. change (0 =? 0) with true. cbv iota. unfold int64_max.
    destruct (Z.leb_spec z 9223372036854775807); [reflexivity|lia].
Qed.
Lemma reads_uint64 z : 9223372036854775808 <= z < 18446744073709551616 -> reads (enc_int z) [] (IUint64 z).
Proof.
  intros Hz n acc rest L. unfold enc_int in *. destruct (Z.ltb_spec z 0); [lia|].
  pose proof (head_nonempty 0 z). destruct n as [|n]; [lia|]. rewrite get_next_head by lia.
  unfold get_untagged. change (0 =? 0) with true. cbv iota. unfold int64_max.
  destruct (Z.leb_spec z 9223372036854775807); [lia|reflexivity].
Qed.
Lemma reads_word z : 0 <= z < 4294967296 -> reads (head4 0 z) [] (IInt z).
Proof.
  intros Hz n acc rest L. rewrite head4_length in L by lia. destruct n as [|n]; [lia|]. cbn [get_next].
  rewrite get_head_head4 by lia. cbn [Z.eqb]. unfold get_untagged. change (0 =? 0) with true. cbv iota. unfold int64_max.
  destruct (Z.leb_spec z 9223372036854775807); [reflexivity|lia].
Qed.

Lemma reads_bytes b : Z.of_nat (length b) < 18446744073709551616 -> reads (enc_bytes b) [] (IBytes b).
Proof.
  intros Hb n acc rest L. unfold enc_bytes in *. rewrite app_length in L. pose proof (head_nonempty 2 (Z.of_nat (length b))).
  destruct n as [|n]; [lia|]. rewrite <- app_assoc, get_next_head by lia. unfold get_untagged.
  change (2 =? 0) with false. change (2 =? 1) with false. change (2 =? 2) with true. cbv iota.
  rewrite Nat2Z.id, split_at_app. reflexivity.
Qed.
Lemma reads_text b : Z.of_nat (length b) < 18446744073709551616 -> reads (enc_text b) [] (IText b).
Proof.
  intros Hb n acc rest L. unfold enc_text in *. rewrite app_length in L. pose proof (head_nonempty 3 (Z.of_nat (length b))).
  destruct n as [|n]; [lia|]. rewrite <- app_assoc, get_next_head by lia. unfold get_untagged.
  change (3 =? 0) with false. change (3 =? 1) with false. change (3 =? 2) with false. change (3 =? 3) with true. cbv iota.
  rewrite Nat2Z.id, split_at_app. reflexivity.
Qed.
Lemma reads_array k : 0 <= k < 18446744073709551616 -> reads (head 4 k) [] (IArray k).
Proof.
  intros Hk n acc rest L. pose proof (head_nonempty 4 k). destruct n as [|n]; [lia|]. rewrite get_next_head by lia. reflexivity.
Qed.
Lemma reads_map k : 0 <= k < 18446744073709551616 -> reads (head 5 k) [] (IMap k).
Proof.
  intros Hk n acc rest L. pose proof (head_nonempty 5 k). destruct n as [|n]; [lia|]. rewrite get_next_head by lia. reflexivity.
Qed.
Lemma reads_double b : 0 <= b < 18446744073709551616 -> reads (enc_double b) [] (IDouble b).
Proof.
  intros Hb n acc rest L. unfold enc_double in *. cbn [length] in L. destruct n as [|n]; [lia|]. rewrite <- app_comm_cons.
  cbn [get_next]. unfold get_head. change (251 / 32) with 7. change (251 mod 32) with 27.
  change (27 <? 24) with false. change (27 =? 24) with false. change (27 =? 25) with false. change (27 =? 26) with false.
  change (27 =? 27) with true. cbv iota zeta. rewrite split_at_be, unbe_be. change (256 ^ Z.of_nat 8) with 18446744073709551616.
  rewrite Z.mod_small by lia. change (7 =? 6) with false. cbv iota. unfold get_untagged.
  change (7 =? 0) with false. change (7 =? 1) with false. change (7 =? 2) with false. change (7 =? 3) with false.
  change (7 =? 4) with false. change (7 =? 5) with false. change (27 =? 26) with false. change (27 =? 27) with true. cbv iota.
  cbn [app]. do 3 f_equal.
Qed.
