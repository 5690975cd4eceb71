(** C14: data blocks are maps.  C15: the space calculation. *)
From Verif Require Import Base Cbor_Model Cbor_Proofs Treeval_Model Data_Model Data_Spec Data_Proofs.

(** ** C14 *)
(** Any sequence of writes to a freshly initialised block of [n] bytes: every write returns what the bounded store
    returns (it fails if and only if the entry does not fit), reading a key gives the last value successfully written,
    the number of objects is the number of distinct keys, the size is exact, iteration visits every entry once, and the
    memory behind the block is not touched. *)
Theorem C14_store : forall b0 n ws, 21 <= n < 4294967296 -> n <= Z.of_nat (length b0) -> Forall good_entry ws -> few_keys ws ->
  exists b1 rs b l, np_init_datablock b0 n = Done (np_data_ok, b1) /\ writes ws b1 = Done (rs, b) /\
    (rs, l) = spec_writes n ws [] /\
    (forall k, np_get_data b k = Done (match last_written k ws rs with Some v => (np_data_ok, Some v) | None => (np_key_not_found, None) end)) /\
    NoDup (map fst l) /\ (forall k v, In (k, v) l <-> last_written k ws rs = Some v) /\
    np_get_object_count b = (np_data_ok, Z.of_nat (length l)) /\
    np_get_data_size b = (np_data_ok, bytes_needed l) /\ bytes_needed l <= n /\
    (forall S (callback : S -> list Z -> datum -> S * bool) s, np_iterate_data callback b s = Done (visit callback l s)) /\
    length b = length b0 /\ skipn (Z.to_nat n) b = skipn (Z.to_nat n) b0.
Proof.
  intros b0 n ws R M G F. destruct (init_step b0 n R M) as (b1 & E1 & I1 & L1 & K1).
  assert (HU : incl (map fst ws) (nodup (list_eq_dec Z.eq_dec) (map fst ws))) by (intros q Hq; apply nodup_In; exact Hq).
  destruct (writes_inv n _ F ws [] b1 I1 G HU (incl_nil_l _)) as (b & E2 & I2 & L2 & K2).
  exists b1, (fst (spec_writes n ws [])), b, (snd (spec_writes n ws [])).
  assert (Lw : forall k, lookup k (snd (spec_writes n ws [])) = last_written k ws (fst (spec_writes n ws []))).
  { intros k. rewrite last_written_lookup. destruct (last_written k ws _); reflexivity. }
  set (l := snd (spec_writes n ws [])) in *. pose proof (inv_keys _ _ _ I2) as Nd.
  split; [exact E1|]. split; [exact E2|]. split; [destruct (spec_writes n ws []); reflexivity|].
  split; [intros k; rewrite (get_inv n l b k I2), Lw; reflexivity|]. split; [exact Nd|].
  split.
  { intros k v. rewrite <- Lw. clear - Nd. induction l as [|[q x] l IH]; cbn [lookup In map fst] in *; [split; [tauto|discriminate]|].
    inversion Nd as [|? ? N1 N2]; subst. destruct (list_eq_dec Z.eq_dec q k) as [->|N].
    - split; [intros [H|H]; [congruence|]|intros H; left; congruence]. exfalso. apply N1. apply in_map_iff. exists (k, v). auto.
    - rewrite <- (IH N2). split; [intros [H|H]; [congruence|exact H]|auto]. }
  unfold np_get_object_count, np_get_data_size. rewrite (inv_header n l b I2). cbn [h_count h_used].
  split; [reflexivity|]. split; [reflexivity|]. split; [exact (inv_fits _ _ _ I2)|].
  split; [intros; apply (iterate_inv callback n l b s I2)|]. split; congruence.
Qed.

Lemma writes_keys n ws U : incl (map fst ws) U -> incl (map fst (snd (spec_writes n ws []))) U.
Proof.
  intros HW q Hq. assert (H : lookup q (snd (spec_writes n ws [])) <> None) by (intros C; apply lookup_none in C; contradiction).
  rewrite last_written_lookup in H. cbn [lookup] in H. apply HW. clear - H.
  revert H. generalize (fst (spec_writes n ws [])). induction ws as [|[k v] ws IH]; intros rs H; cbn [last_written] in H; [contradiction|].
  destruct rs as [|r rs]; [contradiction|]. cbn [map fst]. destruct (last_written q ws rs) eqn:E.
  - right. apply (IH rs). rewrite E. discriminate.
  - left. destruct r; try contradiction. destruct (list_eq_dec Z.eq_dec k q); [assumption|contradiction].
Qed.

(** A write that does not fit leaves every byte as it was. *)
Theorem C14_no_room : forall b0 n ws k v b1 rs b, 21 <= n < 4294967296 -> n <= Z.of_nat (length b0) ->
  Forall good_entry ((k, v) :: ws) -> few_keys ((k, v) :: ws) ->
  np_init_datablock b0 n = Done (np_data_ok, b1) -> writes ws b1 = Done (rs, b) ->
  n < bytes_needed (put k v (snd (spec_writes n ws []))) -> np_set_data b k v = Done (np_insufficient_memory, b).
Proof.
  intros b0 n ws k v b1 rs b R M G F E1 E2 Big. destruct (init_step b0 n R M) as (b1' & E1' & I1 & L1 & K1).
  assert (b1' = b1) by (rewrite E1 in E1'; injection E1'; auto). subst b1'. inversion G as [|? ? [Gk Gv] Gw]; subst.
  set (U := nodup (list_eq_dec Z.eq_dec) (map fst ((k, v) :: ws))) in *.
  assert (HU : incl (map fst ((k, v) :: ws)) U) by (intros q Hq; apply nodup_In; exact Hq).
  assert (HW : incl (map fst ws) U) by (intros q Hq; apply HU; right; exact Hq).
  destruct (writes_inv n U F ws [] b1 I1 Gw HW (incl_nil_l _)) as (b' & E2' & I2 & _).
  assert (b' = b) by (rewrite E2 in E2'; injection E2'; auto). subst b'.
  pose proof (writes_keys n ws U HW) as Hl.
  assert (Few : Z.of_nat (length (put k v (snd (spec_writes n ws [])))) <= 65535).
  { assert (Hp : incl (map fst (put k v (snd (spec_writes n ws [])))) U).
    { intros q Hq. destruct (put_key_in _ _ _ _ Hq) as [->|]; [apply HU; left; reflexivity|auto]. }
    pose proof (NoDup_incl_length (put_keys k v _ (inv_keys _ _ _ I2)) Hp) as L. rewrite map_length in L. unfold few_keys in F. fold U in F. lia. }
  exact (proj2 (set_step n _ b k v I2 Gk Gv Few) Big).
Qed.

(** Merging one block into another is writing its entries one after the other, until one does not fit. *)
Theorem C14_merge : forall b0 n ws bs0 ns wss b1 rs b bs1 rss bs,
  21 <= n < 4294967296 -> n <= Z.of_nat (length b0) -> 21 <= ns < 4294967296 -> ns <= Z.of_nat (length bs0) ->
  Forall good_entry (ws ++ wss) -> few_keys (ws ++ wss) ->
  np_init_datablock b0 n = Done (np_data_ok, b1) -> writes ws b1 = Done (rs, b) ->
  np_init_datablock bs0 ns = Done (np_data_ok, bs1) -> writes wss bs1 = Done (rss, bs) ->
  let (r, l) := spec_merge n (snd (spec_writes ns wss [])) (snd (spec_writes n ws [])) in
  exists b', np_merge_data b bs = Done (r, b') /\
    forall k, np_get_data b' k = Done (match lookup k l with Some v => (np_data_ok, Some v) | None => (np_key_not_found, None) end).
Proof.
  intros b0 n ws bs0 ns wss b1 rs b bs1 rss bs R M Rs Ms G F E1 E2 E3 E4.
  apply Forall_app in G. destruct G as [G Gs]. set (U := nodup (list_eq_dec Z.eq_dec) (map fst (ws ++ wss))) in *.
  assert (HU : incl (map fst (ws ++ wss)) U) by (intros q Hq; apply nodup_In; exact Hq). rewrite map_app in HU.
  assert (H1 : incl (map fst ws) U) by (intros q Hq; apply HU; apply in_or_app; auto).
  assert (H2 : incl (map fst wss) U) by (intros q Hq; apply HU; apply in_or_app; auto).
  destruct (init_step b0 n R M) as (b1' & E1' & I1 & _). assert (b1' = b1) by (rewrite E1 in E1'; injection E1'; auto). subst b1'.
  destruct (init_step bs0 ns Rs Ms) as (bs1' & E3' & I3 & _). assert (bs1' = bs1) by (rewrite E3 in E3'; injection E3'; auto). subst bs1'.
  destruct (writes_inv n U F ws [] b1 I1 G H1 (incl_nil_l _)) as (b' & E2' & I2 & _).
  assert (b' = b) by (rewrite E2 in E2'; injection E2'; auto). subst b'.
  destruct (writes_inv ns U F wss [] bs1 I3 Gs H2 (incl_nil_l _)) as (bs' & E4' & I4 & _).
  assert (bs' = bs) by (rewrite E4 in E4'; injection E4'; auto). subst bs'.
  destruct (merge_inv n ns _ _ b bs U I2 I4 F (writes_keys n ws U H1) (writes_keys ns wss U H2)) as (b' & Em & Im).
  destruct (spec_merge n _ _) as [r l]. cbn [fst snd] in *. exists b'. split; [exact Em|]. intros k. apply (get_inv n l b' k Im).
Qed.

(** A new key whose size is calculated too small is refused, and the block stays as usable as it was. *)
Theorem C14_refused : forall b0 n ws k v b1 rs b, 21 <= n < 4294967296 -> n <= Z.of_nat (length b0) -> Forall good_entry ws -> few_keys ws ->
  np_init_datablock b0 n = Done (np_data_ok, b1) -> writes ws b1 = Done (rs, b) ->
  last_written k ws rs = None -> (length k <= 254)%nat ->
  object_size k v < Z.of_nat (length (encode k v)) -> bytes_needed (snd (spec_writes n ws [])) + object_size k v <= n ->
  exists b', np_set_data b k v = Done (np_could_not_write_total_length, b') /\ (forall q, np_get_data b' q = np_get_data b q) /\
    skipn (Z.to_nat n) b' = skipn (Z.to_nat n) b.
Proof.
  intros b0 n ws k v b1 rs b R M G F E1 E2 Nw Lk Small Room. destruct (init_step b0 n R M) as (b1' & E1' & I1 & _).
  assert (b1' = b1) by (rewrite E1 in E1'; injection E1'; auto). subst b1'.
  assert (HU : incl (map fst ws) (nodup (list_eq_dec Z.eq_dec) (map fst ws))) by (intros q Hq; apply nodup_In; exact Hq).
  destruct (writes_inv n _ F ws [] b1 I1 G HU (incl_nil_l _)) as (b' & E2' & I2 & _).
  rewrite E2 in E2'. injection E2' as -> ->.
  assert (Lo : lookup k (snd (spec_writes n ws [])) = None) by (rewrite last_written_lookup, Nw; reflexivity).
  assert (Pos : 0 <= object_size k v).
  { assert (P1 : forall a, 0 <= size_extra a) by (intros a; unfold size_extra; destruct (a >? 255), (a >? 24); lia).
    assert (P2 : forall a, 0 <= int_extra a) by (intros a; unfold int_extra; destruct (a >? 65535); [lia|apply P1]).
    unfold object_size. destruct (Z.of_nat (length k) >? 24), v as [b0'|z|z|b0'];
      try pose proof (P1 (Z.of_nat (length b0'))); try pose proof (P2 z); try pose proof (P2 (if z >? 0 then z else - z)); lia. }
  destruct (set_fails n _ b' k v I2 Lo Lk Pos Small Room) as (b2 & E3 & I3 & _ & K3).
  exists b2. split; [exact E3|]. split; [|exact K3]. intros q. rewrite (get_inv _ _ _ q I2), (get_inv _ _ _ q I3). reflexivity.
Qed.

(** A block of 64 bytes: three writes, one replaced by a longer value, one that does not fit *)
Definition ex_writes : list (list Z * datum) :=
  [([97], DInt (-7)); ([98], DBin [1; 2; 3]); ([97], DStr [104; 101; 108; 108; 111]); ([99], DBin (repeat 0 30)); ([98], DUint 70000)].
Example C14_ex : Forall good_entry ex_writes /\ few_keys ex_writes /\
  rbind (np_init_datablock (repeat 255 70) 64) (fun r => rbind (writes ex_writes (snd r)) (fun r =>
    rbind (np_get_data (snd r) [97]) (fun a => rbind (np_get_data (snd r) [98]) (fun b => rbind (np_get_data (snd r) [99]) (fun c =>
    Done (fst r, a, b, c, np_get_data_size (snd r), skipn 64 (snd r)))))))
  = Done ([np_data_ok; np_data_ok; np_data_ok; np_insufficient_memory; np_data_ok], (np_data_ok, Some (DStr [104; 101; 108; 108; 111])),
          (np_data_ok, Some (DUint 70000)), (np_key_not_found, None), (np_data_ok, 39), repeat 255 6).
Proof.
  split; [|split; [unfold few_keys; vm_compute; discriminate|vm_compute; reflexivity]].
  repeat (apply Forall_cons; [split; [split; [cbn; lia|split; [cbn; lia|repeat constructor; lia]]|cbn; lia]|]). apply Forall_nil.
Qed.

(** The statement of C14 fails for entries whose size is calculated wrongly.  A value of 24 bytes is refused though there
    is room; as the new value of a present key it destroys the block, the next search never ends. *)
Definition empty_block : run (rc * list Z) := np_init_datablock (repeat 0 128) 128.
Theorem C14_length_24_refuted :
  rbind empty_block (fun r => rbind (writes [([97], DBin (repeat 7 24))] (snd r)) (fun r => Done (fst r))) =
    Done [np_could_not_write_total_length].
Proof. vm_compute. reflexivity. Qed.
Theorem C14_replace_refuted :
  rbind empty_block (fun r => rbind (writes [([97], DBin (repeat 7 10)); ([98], DInt 1); ([97], DBin (repeat 7 24))] (snd r)) (fun r =>
    Done (fst r, np_get_data (snd r) [98]))) =
    Done ([np_data_ok; np_data_ok; np_could_not_write_total_length], Hangs).
Proof. vm_compute. reflexivity. Qed.
(** Storing the number -256 fails an assertion. *)
Theorem C14_negative_refuted : rbind empty_block (fun r => np_set_data (snd r) [97] (DInt (-256))) = Aborts.
Proof. vm_compute. reflexivity. Qed.

(** ** C15 *)
Theorem C15_exact : forall k v, good_key k -> good_value v -> object_size k v = Z.of_nat (length (encode k v)).
Proof. exact size_exact. Qed.
(** Never too small: the two negative numbers are calculated too large. *)
Theorem C15_sufficient : forall k v, (length k <= 254)%nat -> length k <> 24%nat ->
  match v with
  | DBin b | DStr b => length b <> 24%nat /\ Z.of_nat (length b) <= 65535
  | DInt z => -2147483648 < z <= 2147483647 /\ z <> 24
  | DUint z => 0 <= z <= 4294967295 /\ z <> 24
  end -> Z.of_nat (length (encode k v)) <= object_size k v.
Proof.
  intros k v K1 K2 V. rewrite encode_size. unfold object_size.
  assert (A : arg_bytes (Z.of_nat (length k)) = if Z.of_nat (length k) >? 24 then 1 else 0) by sizes.
  rewrite A. destruct v as [b|z|z|b].
  - assert (B : arg_bytes (Z.of_nat (length b)) = size_extra (Z.of_nat (length b))) by sizes. lia.
  - assert (B : arg_bytes (if z <? 0 then -1 - z else z) <= int_extra (if z >? 0 then z else - z)).
    { destruct (Z.ltb_spec z 0), (Z.gtb_spec z 0); try lia; sizes. }
    lia.
  - assert (B : arg_bytes (if z <? 0 then -1 - z else z) = int_extra z).
    { destruct (Z.ltb_spec z 0); [lia|]. sizes. }
    lia.
  - assert (B : arg_bytes (Z.of_nat (length b)) = size_extra (Z.of_nat (length b))) by sizes. lia.
Qed.
Example C15_ex : object_size [97; 98] (DBin (repeat 1 300)) = 306 /\ object_size [97] (DInt (-65537)) = 10 /\
  Z.of_nat (length (encode [97] (DInt (-65537)))) = 10.
Proof. vm_compute. auto. Qed.
(** Too small for keys and values of 24 bytes, the numbers 24, and every value of more than 65535 bytes. *)
Theorem C15_refuted : (forall k v, length k = 24%nat -> good_value v -> object_size k v < Z.of_nat (length (encode k v))) /\
  (forall k b, good_key k -> length b = 24%nat -> object_size k (DBin b) < Z.of_nat (length (encode k (DBin b)))) /\
  (forall k, good_key k -> object_size k (DInt 24) < Z.of_nat (length (encode k (DInt 24)))) /\
  (forall k b, good_key k -> 65535 < Z.of_nat (length b) -> object_size k (DBin b) < Z.of_nat (length (encode k (DBin b)))).
Proof.
  split; [|split; [|split]].
  - intros k v K V. rewrite encode_size. unfold object_size. rewrite K.
    change (arg_bytes (Z.of_nat 24)) with 1. change (if Z.of_nat 24 >? 24 then 1 else 0) with 0. destruct v as [b|z|z|b]; cbn [good_value] in V.
    + assert (B : arg_bytes (Z.of_nat (length b)) = size_extra (Z.of_nat (length b))) by sizes. lia.
    + assert (B : arg_bytes (if z <? 0 then -1 - z else z) = int_extra (if z >? 0 then z else - z)).
      { destruct (Z.ltb_spec z 0), (Z.gtb_spec z 0); try lia; sizes. }
      lia.
    + assert (B : arg_bytes (if z <? 0 then -1 - z else z) = int_extra z).
      { destruct (Z.ltb_spec z 0); [lia|]. sizes. }
      lia.
    + assert (B : arg_bytes (Z.of_nat (length b)) = size_extra (Z.of_nat (length b))) by sizes. lia.
  - intros k b (K1 & K2 & _) B. rewrite encode_size. unfold object_size. rewrite B. change (arg_bytes (Z.of_nat 24)) with 1. change (size_extra (Z.of_nat 24)) with 0.
    assert (A : arg_bytes (Z.of_nat (length k)) = if Z.of_nat (length k) >? 24 then 1 else 0) by sizes. lia.
  - intros k (K1 & K2 & _). rewrite encode_size. unfold object_size. 
    assert (E1 : arg_bytes (if 24 <? 0 then -1 - 24 else 24) = 1) by reflexivity.
    assert (E2 : int_extra (if 24 >? 0 then 24 else Z.opp 24) = 0) by reflexivity. rewrite E1, E2.
    assert (A : arg_bytes (Z.of_nat (length k)) = if Z.of_nat (length k) >? 24 then 1 else 0) by sizes. lia.
  - intros k b (K1 & K2 & _) B. rewrite encode_size. unfold object_size.
    assert (A : arg_bytes (Z.of_nat (length k)) = if Z.of_nat (length k) >? 24 then 1 else 0) by sizes.
    assert (size_extra (Z.of_nat (length b)) = 2 /\ 4 <= arg_bytes (Z.of_nat (length b))) by (split; sizes). lia.
Qed.

Print Assumptions C14_store.
Print Assumptions C14_no_room.
Print Assumptions C14_merge.
Print Assumptions C14_refused.
Print Assumptions C14_length_24_refuted.
Print Assumptions C14_replace_refuted.
Print Assumptions C14_negative_refuted.
Print Assumptions C15_exact.
Print Assumptions C15_sufficient.
Print Assumptions C15_refuted.
