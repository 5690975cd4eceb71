(** C31 (chunk count), C32 (reassembly). *)
From Verif Require Import Base Message_Model Message_Spec Message_Proofs.

(** ** C31 *)
(** For every serialised body up to 64800 bytes (72 chunks) the number of chunks is exactly what is needed. *)
Theorem C31_chunk_count_small : forall size, 0 <= size <= 72 * 900 ->
  enough_pieces size 900 (calculate_chunking (binary_length size)) /\
  binary_length size = calculate_chunking (binary_length size) * 900 + 124.
Proof.
  intros size H. unfold calculate_chunking, binary_length, enough_pieces.
  change chunk_bytes with 900. change fixed_header_bytes with 124. unfold u64, u32, u16.
  assert (exists k, (if size mod 900 =? 0 then size / 900 else size / 900 + 1) = k /\ 0 <= k <= 72 /\ size <= k * 900 /\ (0 < k -> (k - 1) * 900 < size)) as (k & -> & Hk & H1 & H2).
  { eexists. split; [reflexivity|]. destruct (Z.eqb_spec (size mod 900) 0); lia. }
  rewrite (Z.mod_small (k * 900 + 124)) by lia. replace (k * 900 + 124 - 124) with (k * 900) by lia.
  rewrite (Z.mod_small (k * 900) 18446744073709551616) by lia. rewrite (Z.mod_small (k * 900) 65536) by lia.
  rewrite Z.div_mul by lia. rewrite (Z.mod_small k 4294967296) by lia. destruct (Z.ltb_spec 65535 k); [lia|].
  rewrite (Z.mod_small k) by lia. auto.
Qed.
Example chunk_count_example : calculate_chunking (binary_length 901) = 2 /\ calculate_chunking (binary_length 900) = 1 /\ calculate_chunking (binary_length 64800) = 72.
Proof. vm_compute. auto. Qed.

(** FINDING: for every larger body (any size up to 2^40 bytes) fewer chunks are announced and sent than are needed: the length is
    cut to 16 bits before the division.  65700 bytes (73 chunks) are announced as 0 chunks. *)
Theorem C31_chunk_count_large_refuted : forall size, 72 * 900 < size < 2 ^ 40 ->
  calculate_chunking (binary_length size) * 900 < size.
Proof.
  intros size H. unfold calculate_chunking, binary_length.
  change chunk_bytes with 900. change fixed_header_bytes with 124. unfold u64, u32, u16.
  set (L := ((if size mod 900 =? 0 then size / 900 else size / 900 + 1) * 900 + 124) mod 18446744073709551616). clearbody L.
  set (x := (L - 124) mod 18446744073709551616). clearbody x.
  assert (0 <= x mod 65536 < 65536) by (apply Z.mod_pos_bound; lia).
  assert (0 <= x mod 65536 / 900 <= 72) by (split; [apply Z.div_pos; lia|]; apply Z.lt_succ_r, Z.div_lt_upper_bound; lia).
  rewrite (Z.mod_small (x mod 65536 / 900)) by lia. destruct (Z.ltb_spec 65535 (x mod 65536 / 900)); [lia|]. rewrite Z.mod_small by lia. lia.
Qed.
Example chunk_count_large_example : calculate_chunking (binary_length 65700) = 0 /\ calculate_chunking (binary_length 100000) = 39.
Proof. vm_compute. auto. Qed.

(** ** C32 *)
(** Every order of arrival of the chunks (each once) reassembles the message that was sent: nonce, mac,
    header and payload; and before the last one arrives the message is not reported complete. *)
Theorem C32_any_order_reassembles : forall m order fuel, well_formed m -> no_id_wrap m ->
  Permutation order (packets_of m) -> parts m < Z.of_nat fuel ->
  exists s, receive_all fuel None order = Ok (Some s) /\ reported_complete (Some s) = true /\ deserialize_chunks s = Ok (Some m).
Proof.
  intros m order fuel (Hp & Hl & Hm & Hno) Hw P Hf.
  set (n := Z.to_nat (parts m)). assert (Hn : parts m = Z.of_nat n) by (unfold n; lia).
  assert (exists cs, order = map (packet_of m) cs /\ Permutation cs (seq 0 n)) as (cs & -> & Pc).
  { apply Permutation_map_inv in P. destruct P as (cs & -> & P). exists cs. split; auto. symmetry. auto. }
  assert (Hwl : mac16 m + Z.of_nat n <= 65536) by (unfold no_id_wrap in Hw; lia).
  destruct (receive_perm m n n Hn ltac:(lia) ltac:(lia) ltac:(lia) ltac:(lia) Hwl fuel cs) as (s & b & R & E & I & HR).
  - lia.
  - apply (Permutation_NoDup (Permutation_sym Pc)), seq_NoDup.
  - intros c Hc. apply (Permutation_in _ Pc) in Hc. apply in_seq in Hc. lia.
  - intros ->. apply Permutation_nil in Pc. assert (length (seq 0 n) = 0%nat) by (rewrite Pc; auto). rewrite seq_length in H. lia.
  - exists s. split; auto.
    assert (Hall : forall c, (c < n)%nat -> In c R) by (intros c Hc; apply HR; apply (Permutation_in _ (Permutation_sym Pc)); apply in_seq; lia).
    destruct (deserialize_ok m n n Hn ltac:(lia) ltac:(lia) ltac:(lia) ltac:(lia) Hwl s b R I eq_refl Hall) as [Hd Hc]; auto; try lia.
    split; auto. cbn [reported_complete]. pose proof (i_slot0 _ _ _ _ _ _ I) as H0. destruct (slots s) as [|o l]; [discriminate|].
    cbn in H0. subst o. rewrite Hc. cbn [pparts packet_of]. lia.
Qed.

(** ... and as long as a chunk is missing (each of the others arrived at most once, in any order) it is not reported complete. *)
Theorem C32_not_complete_while_missing : forall m chunks missing fuel, well_formed m -> no_id_wrap m ->
  NoDup chunks -> (forall c, In c chunks -> Z.of_nat c < parts m) -> Z.of_nat missing < parts m -> ~ In missing chunks ->
  parts m < Z.of_nat fuel ->
  exists o, receive_all fuel None (map (packet_of m) chunks) = Ok o /\ reported_complete o = false.
Proof.
  intros m cs miss fuel (Hp & Hl & Hm & Hno) Hw N Hb Hmi Hni Hf.
  set (n := Z.to_nat (parts m)). assert (Hn : parts m = Z.of_nat n) by (unfold n; lia).
  assert (Hwl : mac16 m + Z.of_nat n <= 65536) by (unfold no_id_wrap in Hw; lia).
  destruct cs as [|c0 cs0]; [exists None; auto|]. set (cs := c0 :: cs0) in *.
  destruct (receive_perm m n n Hn ltac:(lia) ltac:(lia) ltac:(lia) ltac:(lia) Hwl fuel cs) as (s & b & R & E & I & HR).
  - lia.
  - auto.
  - intros c Hc. specialize (Hb c Hc). lia.
  - discriminate.
  - exists (Some s). split; auto. cbn [reported_complete]. pose proof (i_slot0 _ _ _ _ _ _ I) as H0. destruct (slots s) as [|o l]; [discriminate|].
    cbn in H0. subst o. rewrite (i_count _ _ _ _ _ _ I). cbn [pparts packet_of].
    assert (length (miss :: R) <= length (seq 0 n))%nat.
    { apply NoDup_incl_length.
      - constructor; [rewrite HR; auto|apply (i_nd _ _ _ _ _ _ I)].
      - intros c [<-|Hc]; apply in_seq; [lia|]. apply HR in Hc. specialize (Hb c Hc). lia. }
    rewrite seq_length in H. cbn [length] in H. lia.
Qed.

(** If the first chunk of the message arrives first, duplicates do no harm either: for any further arrivals
    with any repetition the message is reported complete exactly when all chunks were seen, and then it is correct. *)
Record exact (m : message) (n : nat) (s : rstate) (seen : list nat) : Prop := {
  e_len : length (slots s) = n;
  e_base : base s = mac16 m;
  e_slots : forall c, (c < n)%nat -> nth c (slots s) None = if in_dec Nat.eq_dec c seen then Some (packet_of m c) else None;
  e_count : counter s = Z.of_nat (length (nodup Nat.eq_dec seen));
  e_0 : In 0%nat seen;
  e_bound : forall c, In c seen -> (c < n)%nat
}.
Theorem C32_first_chunk_first_tolerates_duplicates : forall m later fuel, well_formed m -> no_id_wrap m ->
  (forall c, In c later -> Z.of_nat c < parts m) -> (1 <= fuel)%nat ->
  exists s, receive_all fuel None (map (packet_of m) (0%nat :: later)) = Ok (Some s) /\
    (reported_complete (Some s) = true <-> (forall c, Z.of_nat c < parts m -> In c (0%nat :: later))) /\
    (reported_complete (Some s) = true -> deserialize_chunks s = Ok (Some m)).
Proof.
  intros m later fuel (Hp & Hl & Hm & Hno) Hw Hb Hf.
  set (n := Z.to_nat (parts m)). assert (Hn : parts m = Z.of_nat n) by (unfold n; lia).
  assert (Hwl : mac16 m + Z.of_nat n <= 65536) by (unfold no_id_wrap in Hw; lia).
  assert (Hid : forall c, (c < n)%nat -> pmac16 (packet_of m c) = mac16 m + Z.of_nat c) by (intros; apply (id_of m n n); auto; lia).
  assert (G : forall l s seen, exact m n s seen -> (forall c, In c l -> (c < n)%nat) ->
    exists s', receive_all fuel (Some s) (map (packet_of m) l) = Ok (Some s') /\ exact m n s' (rev l ++ seen)).
  { induction l as [|c l IH]; intros s seen X Hc; [exists s; auto|]. cbn [map receive_all receive].
    assert (Hcn : (c < n)%nat) by (apply Hc; left; auto).
    assert (exists b s1, add_chunk fuel s (packet_of m c) = Ok (b, s1) /\ exact m n s1 (c :: seen)) as (bb & s1 & E1 & X1).
    { destruct fuel as [|fuel]; [lia|]. cbn [add_chunk]. rewrite Hid, (e_base _ _ _ _ X) by auto.
      assert (Hdup : In c seen -> exact m n s (c :: seen)).
      { intros Hin. constructor; try apply X.
        - intros d Hd. rewrite (e_slots _ _ _ _ X d Hd). destruct (in_dec Nat.eq_dec d seen) as [Hi|Hi], (in_dec Nat.eq_dec d (c :: seen)) as [Hj|Hj]; auto; exfalso.
          + apply Hj. right; auto.
          + destruct Hj as [->|Hj]; auto.
        - rewrite (e_count _ _ _ _ X). cbn [nodup]. destruct (in_dec Nat.eq_dec c seen); [auto|contradiction].
        - right. apply X.
        - intros d [<-|Hd]; auto. apply X; auto. }
      destruct (Z.eqb_spec (mac16 m + Z.of_nat c) (mac16 m)) as [Hz|Hz].
      - assert (c = 0%nat) by lia. subst c. exists false, s. split; auto. apply Hdup. apply X.
      - replace (mac16 m + Z.of_nat c <? mac16 m) with false by lia.
        assert (Ei : Z.to_nat (u16 (mac16 m + Z.of_nat c - mac16 m)) = c) by (unfold u16; rewrite Z.mod_small; lia). rewrite Ei, (e_len _ _ _ _ X).
        rewrite (proj2 (Nat.leb_gt n c)) by lia. rewrite (e_slots _ _ _ _ X c Hcn). destruct (in_dec Nat.eq_dec c seen) as [Hin|Hin].
        + rewrite (mac_eqb_spec m n n) by lia. rewrite Nat.eqb_refl. exists false, s. auto.
        + eexists true, _. split; [reflexivity|]. constructor; cbn [slots base counter].
          * rewrite upd_length. apply X.
          * auto.
          * intros d Hd. destruct (Nat.eq_dec d c) as [->|Hne].
            -- rewrite upd_nth_eq by (rewrite (e_len _ _ _ _ X); auto). destruct (in_dec Nat.eq_dec c (c :: seen)) as [|Hx]; auto. exfalso. apply Hx. left; auto.
            -- rewrite upd_nth_neq by auto. rewrite (e_slots _ _ _ _ X d Hd). destruct (in_dec Nat.eq_dec d seen) as [Hi|Hi], (in_dec Nat.eq_dec d (c :: seen)) as [Hj|Hj]; auto; exfalso.
               ++ apply Hj. right; auto.
               ++ destruct Hj as [->|Hj]; auto.
          * rewrite (e_count _ _ _ _ X). cbn [nodup]. destruct (in_dec Nat.eq_dec c seen); [contradiction|]. cbn [length].
            assert (length (c :: nodup Nat.eq_dec seen) <= length (seq 0 n))%nat.
            { apply NoDup_incl_length; [constructor; [rewrite nodup_In; auto|apply NoDup_nodup]|]. intros d [<-|Hd]; apply in_seq; [lia|]. apply nodup_In in Hd. apply X in Hd. lia. }
            rewrite seq_length in H. cbn [length] in H. unfold u16. rewrite Z.mod_small; lia.
          * right. apply X.
          * intros d [<-|Hd]; auto. apply X; auto. }
    rewrite E1. cbn [obind]. destruct (IH s1 (c :: seen) X1) as (s2 & E2 & X2); [intros; apply Hc; right; auto|].
    exists s2. split; auto. cbn [rev]. rewrite <- app_assoc. auto. }
  cbn [map receive_all receive]. unfold first_chunk. cbn [pparts packet_of]. replace (parts m =? 0) with false by lia. cbn [obind].
  match goal with |- context [receive_all fuel (Some ?s0) _] => set (s0' := s0) end.
  assert (X0 : exact m n s0' [0%nat]).
  { constructor; unfold s0'; cbn [slots base counter].
    - cbn. rewrite repeat_length. lia.
    - change (pmac16 (packet_of m 0) = mac16 m). rewrite Hid by lia. lia.
    - intros [|c] Hc; cbn [nth].
      + destruct (in_dec Nat.eq_dec 0%nat [0%nat]) as [|Hx]; auto. exfalso. apply Hx. left; auto.
      + destruct (in_dec Nat.eq_dec (S c) [0%nat]) as [[Hx|[]]|_]; [discriminate|].
        generalize (Z.to_nat (parts m) - 1)%nat. clear. intros k. revert c. induction k; intros [|c]; cbn; auto.
    - reflexivity.
    - left; auto.
    - intros c [<-|[]]. lia. }
  destruct (G later s0' [0%nat] X0) as (s & E & X).
  { intros c Hc. specialize (Hb c Hc). lia. }
  exists s. split; auto.
  assert (Hset : forall c, In c (rev later ++ [0%nat]) <-> In c (0%nat :: later)) by (intros c; rewrite in_app_iff, <- in_rev; cbn; tauto).
  assert (H0 : exists l, slots s = Some (packet_of m 0) :: l).
  { pose proof (e_slots _ _ _ _ X 0%nat ltac:(lia)) as H0. destruct (in_dec Nat.eq_dec 0%nat (rev later ++ [0%nat])) as [_|Hx]; [|exfalso; apply Hx, Hset; left; auto].
    destruct (slots s) as [|o l]; [discriminate|]. cbn [nth] in H0. subst o. eauto. }
  destruct H0 as (l & El). cbn [reported_complete]. rewrite El. cbn [pparts packet_of].
  assert (Hiff : counter s =? parts m = true <-> (forall c, Z.of_nat c < parts m -> In c (0%nat :: later))).
  { rewrite Z.eqb_eq, (e_count _ _ _ _ X), Hn. split.
    - intros Hc c Hlt. apply Hset. apply (nodup_In Nat.eq_dec).
      assert (Hi : incl (seq 0 n) (nodup Nat.eq_dec (rev later ++ [0%nat]))).
      { apply NoDup_length_incl; [apply NoDup_nodup|rewrite seq_length; lia|]. intros d Hd. apply nodup_In in Hd. apply X in Hd. apply in_seq. lia. }
      apply Hi. apply in_seq. lia.
    - intros H. f_equal. apply Nat.le_antisymm.
      + rewrite <- (seq_length n 0). apply NoDup_incl_length; [apply NoDup_nodup|]. intros d Hd. apply nodup_In in Hd. apply X in Hd. apply in_seq. lia.
      + rewrite <- (seq_length n 0) at 1. apply NoDup_incl_length; [apply seq_NoDup|]. intros d Hd. apply in_seq in Hd. apply nodup_In. apply Hset, H. lia. }
  split; auto. intros Hcomp. pose proof (proj1 Hiff Hcomp) as Hall.
  assert (I : inv m n n s 0 (nodup Nat.eq_dec (rev later ++ [0%nat]))).
  { assert (Hin : forall c, (c < n)%nat -> nth c (slots s) None = Some (packet_of m c)).
    { intros c Hc. rewrite (e_slots _ _ _ _ X c Hc). destruct (in_dec Nat.eq_dec c (rev later ++ [0%nat])) as [|Hx]; auto. exfalso. apply Hx, Hset, Hall. lia. }
    constructor.
    - apply X.
    - rewrite (e_base _ _ _ _ X). lia.
    - apply Hin. lia.
    - intros c Hc. apply nodup_In in Hc. apply X in Hc. lia.
    - apply nodup_In, X.
    - intros i x Hx. assert (i < n)%nat by (rewrite <- (e_len _ _ _ _ X); eapply nth_Some_lt; eauto).
      rewrite Hin in Hx by auto. exists i. split; [apply nodup_In, Hset, Hall; lia|]. split; [congruence|lia].
    - intros c Hc. apply nodup_In in Hc. apply X in Hc. exists c. auto.
    - intros i j c Hi Hj _. assert (i < n)%nat by (rewrite <- (e_len _ _ _ _ X); eapply nth_Some_lt; eauto).
      assert (j < n)%nat by (rewrite <- (e_len _ _ _ _ X); eapply nth_Some_lt; eauto). rewrite Hin in Hi, Hj by auto.
      apply (pk_inj m n n); try lia; congruence.
    - apply NoDup_nodup.
    - apply X. }
  destruct (deserialize_ok m n n Hn ltac:(lia) ltac:(lia) ltac:(lia) ltac:(lia) Hwl s 0 _ I eq_refl) as [Hd _]; auto; try lia.
  intros c Hc. apply nodup_In, Hset, Hall. lia.
Qed.

(** a message of four chunks, a shuffled arrival *)
Definition four : message := mkMsg 1000 [7;7] 5 [9] [1;2;3] 4 (map Z.of_nat (seq 0 900) ++ repeat 1 900 ++ repeat 2 900 ++ repeat 3 900).
Example any_order_applies : well_formed four /\ no_id_wrap four /\
  Permutation (map (packet_of four) [2;0;3;1]%nat) (packets_of four) /\ parts four < Z.of_nat 5 /\
  match receive_all 5 None (map (packet_of four) [2;0;3]%nat) with Ok o => reported_complete o = false | _ => False end.
Proof.
  split; [|split; [vm_compute; discriminate|split; [|split; [vm_compute; reflexivity|vm_compute; reflexivity]]]].
  - repeat split; vm_compute; auto; discriminate.
  - unfold packets_of. apply Permutation_map. change (seq 0 (Z.to_nat (parts four))) with [0;1;2;3]%nat.
    apply perm_trans with [0;2;3;1]%nat; [apply perm_swap|]. apply perm_skip. apply perm_trans with [2;1;3]%nat; [apply perm_skip, perm_swap|apply perm_swap].
Qed.

(** FINDING: reordering together with one duplicate: chunks 2,3,0,3 of a four chunk message arrive, chunk 1
    never does - the message is reported complete and reassembles with chunk 3 in the place of chunk 1. *)
Theorem C32_duplicate_and_reorder_refuted :
  well_formed four /\ no_id_wrap four /\
  match receive_all 10 None (map (packet_of four) [2;3;0;3]%nat) with
  | Ok (Some s) => reported_complete (Some s) = true /\
      match deserialize_chunks s with Ok (Some m') => body m' <> body four | _ => False end
  | _ => False
  end.
Proof.
  destruct any_order_applies as (H1 & H2 & _). split; [exact H1|]. split; [exact H2|]. clear.
  vm_compute. split; [reflexivity|]. intros E. apply (f_equal (fun l => nth 900%nat l 0)) in E. vm_compute in E. discriminate E.
Qed.

(** FINDING: chunk numbers live in the first two mac bytes and wrap.  Whenever the random mac is within [parts]
    of 65536, even in-order arrival stores outside of the chunk array. *)
Theorem C32_id_wrap_refuted : forall m n fuel, parts m = Z.of_nat n -> (2 <= n)%nat -> Z.of_nat n <= 32768 ->
  0 <= mac16 m < 65536 -> 65536 < mac16 m + parts m -> (2 <= fuel)%nat -> Z.of_nat n < Z.of_nat fuel ->
  receive_all fuel None (packets_of m) = UB.
Proof.
  intros m n fuel Hn Hn2 Hn3 Hm Hw Hf2 Hf.
  set (w := Z.to_nat (65536 - mac16 m)). assert (Hwn : (w < n)%nat) by lia.
  unfold packets_of. rewrite Hn, Nat2Z.id. replace n with (w + (1 + (n - w - 1)))%nat by lia. rewrite !seq_app, !map_app. cbn [seq map app].
  rewrite receive_all_app.
  destruct (receive_perm m n w Hn ltac:(lia) ltac:(lia) ltac:(lia) ltac:(lia) ltac:(lia) fuel (seq 0 w)) as (s & b & R & E & I & HR).
  - lia.
  - apply seq_NoDup.
  - intros c Hc. apply in_seq in Hc. lia.
  - intros Hx. assert (length (seq 0 w) = 0%nat) by (rewrite Hx; auto). rewrite seq_length in H. lia.
  - rewrite E. cbn [obind receive_all receive].
    assert (Hb0 : b = 0%nat). { assert (In 0%nat R) by (apply HR, in_seq; lia). pose proof (i_bound _ _ _ _ _ _ I 0%nat H). lia. } subst b.
    assert (Hidw : pmac16 (packet_of m (0 + w)) = 0) by (cbn; unfold u16; replace (mac16 m + Z.of_nat w) with 65536 by lia; reflexivity).
    assert (Hid0 : pmac16 (packet_of m 0) = mac16 m) by (cbn; unfold u16; rewrite Z.mod_small; lia).
    destruct fuel as [|[|fuel]]; try lia. cbn [add_chunk]. rewrite Hidw, (i_base _ _ _ _ _ _ I).
    replace (0 =? mac16 m + Z.of_nat 0) with false by lia. replace (0 <? mac16 m + Z.of_nat 0) with true by lia.
    pose proof (i_slot0 _ _ _ _ _ _ I) as H0. pose proof (i_len _ _ _ _ _ _ I) as Hlen. destruct (slots s) as [|o l]; [discriminate|]. cbn [nth] in H0. subst o.
    cbn [base slots]. rewrite Hid0. replace (mac16 m =? 0) with false by lia. replace (mac16 m <? 0) with false by lia.
    assert (Ei : Z.to_nat (u16 (mac16 m - 0)) = Z.to_nat (mac16 m)) by (unfold u16; rewrite Z.mod_small; f_equal; lia). rewrite Ei.
    assert (Hle : (length (Some (packet_of m (0 + w)) :: l) <=? Z.to_nat (mac16 m))%nat = true) by (apply Nat.leb_le; cbn [length] in *; lia).
    rewrite Hle. reflexivity.
Qed.
Example id_wrap_applies : let m := mkMsg 65535 [] 0 [] [] 2 (repeat 0 1800) in
  parts m = Z.of_nat 2 /\ 0 <= mac16 m < 65536 /\ 65536 < mac16 m + parts m.
Proof. cbn. lia. Qed.

(** FINDING: a received chunk whose number is [parts] or more above the base is stored outside of the array
    (heap write), and a header announcing zero parts is stored into an empty array. *)
Theorem C32_foreign_chunk_number_refuted : forall s p fuel, base s < pmac16 p < 65536 -> 0 <= base s ->
  Z.of_nat (length (slots s)) <= pmac16 p - base s -> (1 <= fuel)%nat -> add_chunk fuel s p = UB.
Proof.
  intros s p fuel H H0 Hl Hf. destruct fuel; [lia|]. cbn [add_chunk]. replace (pmac16 p =? base s) with false by lia.
  replace (pmac16 p <? base s) with false by lia.
  assert (Ei : (length (slots s) <=? Z.to_nat (u16 (pmac16 p - base s)))%nat = true) by (apply Nat.leb_le; unfold u16; rewrite Z.mod_small; lia).
  rewrite Ei. reflexivity.
Qed.
Theorem C32_zero_parts_refuted : forall p, pparts p = 0 -> first_chunk p = UB.
Proof. intros p H. unfold first_chunk. rewrite H. reflexivity. Qed.
Example foreign_chunk_example :
  match receive_all 5 None [packet_of four 0] with
  | Ok (Some s) => add_chunk 5 s (mkPk 1004 [7;7] 5 [9] [] 4 []) = UB
  | _ => False end /\ pparts (mkPk 1 [] 1 [] [] 0 []) = 0.
Proof. vm_compute. auto. Qed.

(** ** C40: life time of a message *)
(** A message does not expire before its ttl has passed since it was created, is expired from then on, and
    never becomes unexpired as time goes on. *)
Theorem C40_expires_exactly_after_ttl : forall created ttl now,
  (is_expired created ttl now = true <-> ttl * 1000000 <= now - created) /\
  (forall later, now <= later -> is_expired created ttl now = true -> is_expired created ttl later = true).
Proof. intros. unfold is_expired, expiry. split; [|intros later H]; lia. Qed.
(** The ttl carried by a message is never 0, and all [max_retry]+1 attempts together fit into the configured
    ttl, provided the configured ttl allows at least one second per attempt. *)
Theorem C40_attempts_fit_into_ttl : forall ttl_us retry, 0 <= retry <= 255 -> 0 <= ttl_us < 4294967296 * 1000000 ->
  exists t, message_ttl (Some (ttl_us, retry)) = Ok t /\ 1 <= t /\
    ((retry + 1) * 1000000 <= ttl_us -> (retry + 1) * (t * 1000000) <= ttl_us < (retry + 1) * ((t + 1) * 1000000)).
Proof.
  intros T r Hr HT. unfold message_ttl, u8. rewrite (Z.mod_small r) by lia. rewrite Z.quot_div_nonneg by lia.
  set (d := 1000000 * (r + 1)). assert (Hd : 1000000 <= d) by lia.
  pose proof (Z.div_mod T d ltac:(lia)) as E. pose proof (Z.mod_pos_bound T d ltac:(lia)) as B.
  assert (0 <= T / d) by (apply Z.div_pos; lia). assert (T / d < 4294967296) by (apply Z.div_lt_upper_bound; nia).
  replace ((T / d <? 0) || (4294967295 <? T / d)) with false by lia. cbn [obind]. eexists. split; [reflexivity|].
  destruct (Z.eqb_spec (T / d) 0) as [Hz|Hz].
  - split; [lia|]. intros HH. rewrite Hz in E. lia.
  - split; [lia|]. intros HH. split; nia.
Qed.
Example attempts_example : message_ttl (Some (20000000, 3)) = Ok 5 /\ message_ttl None = Ok 19 /\ is_expired 100 5 5000099 = false /\ is_expired 100 5 5000100 = true.
Proof. vm_compute. auto. Qed.
(** FINDING: with a shorter configured ttl every attempt still lives one second, so together they outlive it. *)
Theorem C40_short_ttl_refuted : forall ttl_us retry, 1 <= retry <= 255 -> 0 <= ttl_us < (retry + 1) * 1000000 ->
  exists t, message_ttl (Some (ttl_us, retry)) = Ok t /\ ttl_us < (retry + 1) * (t * 1000000).
Proof.
  intros T r Hr HT. exists 1. unfold message_ttl, u8. rewrite (Z.mod_small r) by lia. rewrite Z.quot_small by lia. split; [reflexivity|lia].
Qed.
Example short_ttl_example : message_ttl (Some (2000000, 3)) = Ok 1.
Proof. reflexivity. Qed.

Print Assumptions C31_chunk_count_small.
Print Assumptions C31_chunk_count_large_refuted.
Print Assumptions C32_any_order_reassembles.
Print Assumptions C32_not_complete_while_missing.
Print Assumptions C32_first_chunk_first_tolerates_duplicates.
Print Assumptions C32_duplicate_and_reorder_refuted.
Print Assumptions C32_id_wrap_refuted.
Print Assumptions C32_foreign_chunk_number_refuted.
Print Assumptions C32_zero_parts_refuted.
Print Assumptions C40_expires_exactly_after_ttl.
Print Assumptions C40_attempts_fit_into_ttl.
Print Assumptions C40_short_ttl_refuted.
