From Verif Require Import Base Uuid_Model Uuid_Spec.

Lemma digits_length n x : length (digits n x) = n.
Proof. revert x; induction n; intros; simpl; [reflexivity|]. rewrite app_length, IHn. simpl. lia. Qed.
Lemma digits_inj n : forall x y, 0 <= x < 10 ^ Z.of_nat n -> 0 <= y < 10 ^ Z.of_nat n -> digits n x = digits n y -> x = y.
Proof.
  induction n as [|n IH]; intros x y X Y E; [simpl in *; lia|].
  simpl in E. apply app_inj_tail in E. destruct E as [E1 E2].
  rewrite Nat2Z.inj_succ, Z.pow_succ_r in * by lia.
  assert (x / 10 = y / 10).
  { apply IH; auto; (split; [apply Z.div_pos; lia|apply Z.div_lt_upper_bound; lia]). }
  pose proof (Z.div_mod x 10). pose proof (Z.div_mod y 10). lia.
Qed.
Lemma unsigned_no_dot f x : ~ In 46 (unsigned f x).
Proof.
  revert x. induction f; intros x I; simpl in I; [assumption|]. apply in_app_or in I. destruct I as [I|[I|[]]].
  - destruct (x <? 10); [destruct I|exact (IHf _ I)].
  - pose proof (Z.mod_pos_bound x 10). lia.
Qed.
Lemma unsigned_nonnil f x : unsigned (S f) x <> [].
Proof. simpl. intros E. apply app_eq_nil in E. destruct E; discriminate. Qed.
Lemma unsigned_inj f : forall x y, 0 <= x < 10 ^ Z.of_nat f -> 0 <= y < 10 ^ Z.of_nat f -> unsigned f x = unsigned f y -> x = y.
Proof.
  induction f as [|f IH]; intros x y X Y E; [simpl in *; lia|].
  simpl in E. apply app_inj_tail in E. destruct E as [E1 E2].
  rewrite Nat2Z.inj_succ, Z.pow_succ_r in * by lia.
  assert (D : forall z, 0 <= z < 10 * 10 ^ Z.of_nat f -> 0 <= z / 10 < 10 ^ Z.of_nat f).
  { intros z Z0. split; [apply Z.div_pos; lia|apply Z.div_lt_upper_bound; lia]. }
  destruct (x <? 10) eqn:A, (y <? 10) eqn:B.
  - rewrite Z.mod_small in E2 by lia. rewrite Z.mod_small in E2 by lia. lia.
  - exfalso. destruct f; [simpl in Y; lia|]. symmetry in E1. apply (unsigned_nonnil _ _ E1).
  - exfalso. destruct f; [simpl in X; lia|]. apply (unsigned_nonnil _ _ E1).
  - assert (x / 10 = y / 10) by (apply IH; auto).
    pose proof (Z.div_mod x 10). pose proof (Z.div_mod y 10). lia.
Qed.

Lemma round_even_bounds a b : 0 < b -> 2 * a - b <= 2 * b * round_even a b <= 2 * a + b.
Proof.
  intros B. pose proof (Z.div_mod a b ltac:(lia)) as D. pose proof (Z.mod_pos_bound a b B) as M.
  unfold round_even. set (q := a / b) in *. set (r := a mod b) in *. clearbody q r. subst a.
  destruct (2 * r <? b) eqn:E1; [lia|]. destruct (b <? 2 * r) eqn:E2; [lia|]. destruct (Z.even q); lia.
Qed.
Lemma decimals_lt t1 t2 : t1 < t2 -> decimals t1 < decimals t2.
Proof.
  intros L. pose proof (round_even_bounds (t1 * 152587890625) 64 ltac:(lia)).
  pose proof (round_even_bounds (t2 * 152587890625) 64 ltac:(lia)). unfold decimals. lia.
Qed.
Lemma decimals_range t : reading t -> 0 <= decimals t < 10 ^ 36.
Proof.
  intros [A B]. pose proof (round_even_bounds (t * 152587890625) 64 ltac:(lia)). unfold decimals.
  change (2 ^ 52) with 4503599627370496 in A. change (2 ^ 53) with 9007199254740992 in B.
  change (10 ^ 36) with 1000000000000000000000000000000000000. lia.
Qed.

Lemma split_dot (a b c d : list Z) : ~ In 46 a -> ~ In 46 c -> a ++ [46] ++ b = c ++ [46] ++ d -> a = c /\ b = d.
Proof.
  revert c. induction a as [|x a IH]; intros c A C E; destruct c as [|y c]; simpl in E.
  - injection E as E. auto.
  - injection E as E1 E2. subst y. exfalso. apply C. left; reflexivity.
  - injection E as E1 E2. subst x. exfalso. apply A. left; reflexivity.
  - injection E as E1 E2. destruct (IH c) as [F1 F2]; auto; [intros I; apply A; right; assumption|intros I; apply C; right; assumption|].
    subst; auto.
Qed.
Lemma seconds_inj t1 t2 : reading t1 -> reading t2 -> seconds t1 = seconds t2 -> t1 = t2.
Proof.
  intros R1 R2 E. unfold seconds in E. apply split_dot in E; [|apply unsigned_no_dot..]. destruct E as [E1 E2].
  pose proof (decimals_range _ R1) as D1. pose proof (decimals_range _ R2) as D2.
  set (k := 10000000000000000) in *. assert (0 < k) by (unfold k; lia).
  assert (KK : 10 ^ 36 = k * 10 ^ 20) by reflexivity. rewrite KK in *.
  apply unsigned_inj in E1; [|split; [apply Z.div_pos; lia|apply Z.div_lt_upper_bound; [lia|exact (proj2 D1)]]|split; [apply Z.div_pos; lia|apply Z.div_lt_upper_bound; [lia|exact (proj2 D2)]]].
  apply digits_inj in E2; [|exact (Z.mod_pos_bound (decimals t1) k H)|exact (Z.mod_pos_bound (decimals t2) k H)].
  assert (E : decimals t1 = decimals t2).
  { rewrite (Z.div_mod (decimals t1) k), (Z.div_mod (decimals t2) k) by lia. rewrite E1, E2. reflexivity. }
  destruct (Z.lt_trichotomy t1 t2) as [L|[L|L]]; [apply decimals_lt in L; lia|assumption|apply decimals_lt in L; lia].
Qed.
Lemma unsigned_length_le f x : (length (unsigned f x) <= f)%nat.
Proof. revert x; induction f; intros; simpl; [lia|]. rewrite app_length. simpl. destruct (x <? 10); simpl; [lia|]. specialize (IHf (x / 10)). lia. Qed.
Lemma unsigned_nonzero f x c : In c (unsigned f x) -> 48 <= c.
Proof.
  revert x. induction f; intros x I; simpl in I; [destruct I|]. apply in_app_or in I. destruct I as [I|[I|[]]].
  - destruct (x <? 10); [destruct I|exact (IHf _ I)].
  - pose proof (Z.mod_pos_bound x 10). lia.
Qed.
Lemma digits_nonzero n x c : In c (digits n x) -> 48 <= c.
Proof.
  revert x. induction n; intros x I; simpl in I; [destruct I|]. apply in_app_or in I. destruct I as [I|[I|[]]]; [exact (IHn _ I)|].
  pose proof (Z.mod_pos_bound x 10). lia.
Qed.
Lemma seconds_nonzero t c : In c (seconds t) -> c <> 0.
Proof.
  unfold seconds. intros I. apply in_app_or in I. destruct I as [I|I]; [apply unsigned_nonzero in I; lia|].
  apply in_app_or in I. destruct I as [[I|[]]|I]; [lia|apply digits_nonzero in I; lia].
Qed.
Lemma seconds_length t : (length (seconds t) <= 37)%nat.
Proof. unfold seconds. rewrite !app_length, digits_length. pose proof (unsigned_length_le 20 (decimals t / 10000000000000000)). simpl length at 2. lia. Qed.

Lemma pad64_length s : (length s <= 64)%nat -> length (pad64 s) = 64%nat.
Proof. intros. unfold pad64. rewrite app_length, repeat_length. lia. Qed.
Lemma pad64_inj s1 s2 : (length s1 <= 64)%nat -> (length s2 <= 64)%nat ->
  hd 0 s1 <> 32 -> hd 0 s2 <> 32 -> s1 <> [] -> s2 <> [] -> pad64 s1 = pad64 s2 -> s1 = s2.
Proof.
  intros L1 L2 H1 H2 N1 N2 E. unfold pad64 in E.
  assert (G : forall n1 n2 (s1 s2 : list Z), hd 0 s1 <> 32 -> hd 0 s2 <> 32 -> s1 <> [] -> s2 <> [] -> repeat 32 n1 ++ s1 = repeat 32 n2 ++ s2 -> s1 = s2).
  { clear. induction n1 as [|n1 IH]; intros n2 s1 s2 H1 H2 N1 N2 E; destruct n2 as [|n2]; simpl in E.
    - assumption.
    - subst s1. simpl in H1. congruence.
    - subst s2. simpl in H2. congruence.
    - injection E as E. eapply IH; eauto. }
  eapply G; eauto.
Qed.

Lemma strip_zeros (a b : list Z) m n : Forall (fun c => c <> 0) a -> Forall (fun c => c <> 0) b -> a ++ repeat 0 m = b ++ repeat 0 n -> a = b.
Proof.
  intros A. revert b. induction A as [|x a X A IH]; intros b B E; destruct B as [|y b Y B]; simpl in E.
  - reflexivity.
  - destruct m; simpl in E; [discriminate|]. injection E as E1 _. congruence.
  - destruct n; simpl in E; [discriminate|]. injection E as E1 _. congruence.
  - injection E as E1 E2. f_equal; [assumption|]. apply IH; assumption.
Qed.

Lemma app_inj_len {A} (a b c d : list A) : length a = length c -> a ++ b = c ++ d -> a = c /\ b = d.
Proof.
  revert c. induction a as [|x a IH]; intros [|y c] L E; simpl in *; try discriminate; [auto|].
  injection E as E1 E2. injection L as L. destruct (IH _ L E2). subst; auto.
Qed.

Definition plain (s : list Z) : Prop := (length s <= 64)%nat /\ hd 0 s <> 32 /\ s <> [] /\ Forall (fun c => c <> 0) s.

Lemma uuid_input_inj s1 n1 t1 s2 n2 t2 : plain s1 -> plain s2 -> 0 <= n1 < 2 ^ 32 -> 0 <= n2 < 2 ^ 32 -> reading t1 -> reading t2 ->
  uuid_input s1 n1 t1 = uuid_input s2 n2 t2 -> s1 = s2 /\ n1 = n2 /\ t1 = t2.
Proof.
  intros (L1 & H1 & N1 & Z1) (L2 & H2 & N2 & Z2) U1 U2 R1 R2 E.
  assert (LEN : forall s n t, (length s <= 64)%nat -> (length (uuid_text s n t) <= 254)%nat).
  { intros s n t L. unfold uuid_text. rewrite !app_length, digits_length, pad64_length by assumption.
    pose proof (seconds_length t). simpl length. lia. }
  assert (NZ : forall s n t, Forall (fun c => c <> 0) s -> Forall (fun c => c <> 0) (uuid_text s n t)).
  { intros s n t F. unfold uuid_text, pad64. apply Forall_app; split; [apply Forall_app; split; [|exact F]|apply Forall_app; split; [|apply Forall_app; split; [|apply Forall_app; split]]].
    - apply Forall_forall. intros x I. apply repeat_spec in I. lia.
    - repeat constructor; lia.
    - apply Forall_forall. intros x I. apply digits_nonzero in I. lia.
    - repeat constructor; lia.
    - apply Forall_forall. intros x I. eapply seconds_nonzero; eauto. }
  unfold uuid_input in E. rewrite !firstn_all2 in E by (apply LEN; assumption).
  apply strip_zeros in E; [|apply NZ; assumption..]. unfold uuid_text in E.
  apply app_inj_len in E; [|rewrite !pad64_length by assumption; reflexivity]. destruct E as [E1 E].
  apply app_inj_len in E; [|reflexivity]. destruct E as [_ E].
  apply app_inj_len in E; [|rewrite !digits_length; reflexivity]. destruct E as [E2 E].
  apply app_inj_len in E; [|reflexivity]. destruct E as [_ E3].
  split; [apply pad64_inj; assumption|]. split; [|apply seconds_inj; assumption].
  change (2 ^ 32) with 4294967296 in *. apply (digits_inj 10); [change (10 ^ Z.of_nat 10) with 10000000000; lia..|assumption].
Qed.

Lemma urn_plain x : plain (fst (urn x)) /\ 0 <= snd (urn x) < 2 ^ 32.
Proof.
  destruct x; (split; [split; [vm_compute; lia|split; [vm_compute; discriminate|split; [discriminate|vm_compute; repeat constructor; discriminate]]]|vm_compute; split; [discriminate|reflexivity]]).
Qed.
Lemma urn_inj x y : fst (urn x) = fst (urn y) -> x = y.
Proof. destruct x, y; intros E; try reflexivity; vm_compute in E; discriminate. Qed.
