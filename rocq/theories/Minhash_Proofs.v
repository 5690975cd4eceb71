From Verif Require Import Base Minhash_Model Minhash_Spec.

Lemma hash_word h t i : hash_at h t i = word (seed h) t i.
Proof.
  unfold hash_at, word, u32, u64, h1, h2. set (a := siphash24 _ t). set (b := siphash24 _ t).
  change 18446744073709551616 with (2 ^ 32 * 2 ^ 32). change 4294967296 with (2 ^ 32).
  rewrite Z.add_mod_idemp_r by lia. rewrite Z.rem_mul_r by lia.
  rewrite (Z.mul_comm (2 ^ 32)). rewrite Z_mod_plus_full. apply Z.mod_mod. lia.
Qed.

Lemma word_range sd t i : 0 <= word sd t i < 2 ^ 32.
Proof. apply Z.mod_pos_bound. lia. Qed.

Lemma at_upd_eq l i x : 0 <= i < Z.of_nat (length l) -> at_ (upd l (Z.to_nat i) x) i = x.
Proof. intros. unfold at_. apply upd_nth_eq. lia. Qed.
Lemma at_upd_neq l i j x : 0 <= i -> 0 <= j -> i <> j -> at_ (upd l (Z.to_nat i) x) j = at_ l j.
Proof. intros. unfold at_. apply upd_nth_neq. lia. Qed.

Lemma zrange_S n : 0 <= n -> zrange (n + 1) = zrange n ++ [n].
Proof.
  intros. unfold zrange. replace (Z.to_nat (n + 1)) with (Z.to_nat n + 1)%nat by lia.
  rewrite seq_app, map_app. cbn [seq map Nat.add]. do 2 f_equal. lia.
Qed.
Lemma zrange_in n x : In x (zrange n) <-> 0 <= x < n.
Proof.
  unfold zrange. rewrite in_map_iff. split.
  - intros (k & <- & H). apply in_seq in H. lia.
  - intros H. exists (Z.to_nat x). split; [lia|]. apply in_seq. lia.
Qed.

Definition wf (h : mh) : Prop := 0 <= size h /\ size h mod 2 = 0 /\ Z.of_nat (length (mins h)) = size h.

Lemma half2 h : wf h -> size h = 2 * (size h / 2).
Proof. intros (H0 & H & _). pose proof (Z.div_mod (size h) 2). lia. Qed.

(** one push in multi mode, position by position *)
Lemma multi_fold h t n l : 0 <= n <= size h / 2 -> Z.of_nat (length l) = 2 * (size h / 2) ->
  let l' := fold_left (multi_step h t) (zrange n) l in
  length l' = length l /\
  forall i, 0 <= i < size h / 2 ->
    at_ l' i = (if i <? n then Z.min (at_ l i) (hash_at h t i) else at_ l i) /\
    at_ l' (size h / 2 + i) = (if i <? n then Z.max (at_ l (size h / 2 + i)) (hash_at h t i) else at_ l (size h / 2 + i)).
Proof.
  intros (Hn0 & Hn) Hl. revert n Hn0 Hn.
  apply (natlike_ind (fun n => n <= size h / 2 -> let l' := fold_left (multi_step h t) (zrange n) l in
    length l' = length l /\ forall i, 0 <= i < size h / 2 ->
    at_ l' i = (if i <? n then Z.min (at_ l i) (hash_at h t i) else at_ l i) /\
    at_ l' (size h / 2 + i) = (if i <? n then Z.max (at_ l (size h / 2 + i)) (hash_at h t i) else at_ l (size h / 2 + i)))).
  - intros _. cbn. split; auto. intros i Hi. replace (i <? 0) with false by lia. auto.
  - intros n Hn IH Hle. unfold Z.succ. rewrite zrange_S by lia. rewrite fold_left_app. cbn [fold_left].
    destruct IH as (L & IH); [lia|]. set (m := fold_left _ _ _) in *. set (half := size h / 2) in *.
    destruct (IH n ltac:(lia)) as (A1 & A2). replace (n <? n) with false in * by lia.
    unfold multi_step. fold half. cbv zeta. set (x := hash_at h t n) in *.
    set (m1 := if x <? at_ m n then upd m (Z.to_nat n) x else m).
    assert (L1 : length m1 = length m) by (unfold m1; destruct (_ <? _); auto using upd_length).
    assert (M1 : at_ m1 n = Z.min (at_ l n) x).
    { unfold m1. rewrite A1. destruct (Z.ltb_spec x (at_ l n)); [rewrite at_upd_eq by lia; lia|]. lia. }
    assert (O1 : forall j, 0 <= j -> j <> n -> at_ m1 j = at_ m j).
    { intros j Hj Hne. unfold m1. destruct (_ <? _); auto. apply at_upd_neq; lia. }
    assert (A2' : at_ m1 (n + half) = at_ l (half + n)) by (rewrite O1 by lia; rewrite (Z.add_comm n half); exact A2).
    rewrite A2'. split.
    + destruct (at_ l (half + n) <? x); rewrite ?upd_length; lia.
    + intros i Hi. destruct (IH i Hi) as (B1 & B2). destruct (Z.eq_dec i n) as [->|Hne].
      * replace (n <? n + 1) with true by lia. fold x. split.
        -- destruct (at_ l (half + n) <? x); [rewrite at_upd_neq by lia|]; exact M1.
        -- destruct (Z.ltb_spec (at_ l (half + n)) x).
           ++ rewrite (Z.add_comm n half). rewrite at_upd_eq by lia. lia.
           ++ rewrite O1 by lia. rewrite A2. lia.
      * replace (i <? n + 1) with (i <? n) by lia. split.
        -- transitivity (at_ m i); [|exact B1]. destruct (at_ l (half + n) <? x); [rewrite at_upd_neq by lia|]; apply O1; lia.
        -- transitivity (at_ m (half + i)); [|exact B2]. destruct (at_ l (half + n) <? x); [rewrite at_upd_neq by lia|]; apply O1; lia.
Qed.

Definition in_list (ts : list token) : token -> Prop := fun t => In t ts.

Lemma at_nth l i : at_ l i = nth (Z.to_nat i) l 0.
Proof. reflexivity. Qed.

Lemma sig_init sd half : 0 <= half ->
  is_signature sd half (fun _ => False) (repeat UMAX (Z.to_nat half) ++ repeat 0 (Z.to_nat half)).
Proof.
  intros H. split; [rewrite app_length, !repeat_length; lia|]. intros i Hi. split.
  - rewrite app_nth1 by (rewrite repeat_length; lia).
    assert (E : nth (Z.to_nat i) (repeat UMAX (Z.to_nat half)) 0 = UMAX).
    { apply (repeat_spec (Z.to_nat half)). apply nth_In. rewrite repeat_length. lia. }
    rewrite E. split; [left; reflexivity|]. intros y [->|(t & [] & _)]. unfold UMAX. lia.
  - rewrite app_nth2 by (rewrite repeat_length; lia).
    assert (E : nth (Z.to_nat (half + i) - length (repeat UMAX (Z.to_nat half))) (repeat 0 (Z.to_nat half)) 0 = 0).
    { apply (repeat_spec (Z.to_nat half)). apply nth_In. rewrite !repeat_length. lia. }
    rewrite E. split; [left; reflexivity|]. intros y [->|(t & [] & _)]. lia.
Qed.

Lemma sig_push sd half P l l' t : is_signature sd half P l -> length l' = length l ->
  (forall i, 0 <= i < half -> at_ l' i = Z.min (at_ l i) (word sd t i) /\ at_ l' (half + i) = Z.max (at_ l (half + i)) (word sd t i)) ->
  is_signature sd half (fun x => P x \/ x = t) l'.
Proof.
  intros (L & S) L' H. split; [lia|]. intros i Hi. destruct (S i Hi) as ((A1 & A2) & (B1 & B2)).
  destruct (H i Hi) as (E1 & E2). rewrite <- !at_nth in *. rewrite E1, E2. split.
  - split.
    + destruct (Z.min_spec (at_ l i) (word sd t i)) as [(_ & ->)|(_ & ->)]; [|right; eauto].
      destruct A1 as [->|(u & Hu & ->)]; [left|right]; eauto.
    + intros y [->|(u & [Hu|Hu] & ->)].
      * specialize (A2 (2 ^ 32 - 1) (or_introl eq_refl)). lia.
      * specialize (A2 (word sd u i)). rewrite (A2 (or_intror (ex_intro _ u (conj Hu eq_refl)))) || idtac.
        pose proof (A2 (or_intror (ex_intro _ u (conj Hu eq_refl)))). lia.
      * subst u. lia.
  - split.
    + destruct (Z.max_spec (at_ l (half + i)) (word sd t i)) as [(_ & ->)|(_ & ->)]; [right; eauto|].
      destruct B1 as [->|(u & Hu & ->)]; [left|right]; eauto.
    + intros y [->|(u & [Hu|Hu] & ->)].
      * specialize (B2 0 (or_introl eq_refl)). lia.
      * pose proof (B2 _ (or_intror (ex_intro _ u (conj Hu eq_refl)))). lia.
      * subst u. lia.
Qed.

Lemma sig_unique sd half P Q l l' : (forall t, P t <-> Q t) ->
  is_signature sd half P l -> is_signature sd half Q l' -> l = l'.
Proof.
  intros E (L & S) (L' & S'). apply nth_ext with (d := 0) (d' := 0); [lia|]. intros n Hn.
  assert (Ex : forall x i, (exists t, P t /\ x = word sd t i) <-> (exists t, Q t /\ x = word sd t i)).
  { intros x i. split; intros (t & Ht & ->); exists t; split; auto; apply E; auto. }
  destruct (Z_lt_ge_dec (Z.of_nat n) half) as [Lt|Ge].
  - destruct (S (Z.of_nat n) ltac:(lia)) as ((A & A') & _), (S' (Z.of_nat n) ltac:(lia)) as ((B & B') & _).
    rewrite Nat2Z.id in *. rewrite Ex in A. rewrite <- Ex in B. specialize (B' _ A). specialize (A' _ B). lia.
  - destruct (S (Z.of_nat n - half) ltac:(lia)) as (_ & (A & A')), (S' (Z.of_nat n - half) ltac:(lia)) as (_ & (B & B')).
    replace (half + (Z.of_nat n - half)) with (Z.of_nat n) in * by lia.
    rewrite Nat2Z.id in *. rewrite Ex in A. rewrite <- Ex in B. specialize (B' _ A). specialize (A' _ B). lia.
Qed.

Lemma sig_ext sd half P Q l : (forall t, P t <-> Q t) -> is_signature sd half P l -> is_signature sd half Q l.
Proof.
  intros E (L & S). split; auto. intros i Hi. destruct (S i Hi) as ((A & A') & (B & B')).
  assert (Ex : forall x, (exists t, P t /\ x = word sd t i) <-> (exists t, Q t /\ x = word sd t i)).
  { intros x. split; intros (t & Ht & ->); exists t; split; auto; apply E; auto. }
  split; split; try (rewrite <- Ex; assumption); intros y Hy; [apply A'|apply B']; rewrite Ex; assumption.
Qed.

(** the state after pushing tokens in multi mode *)
Definition Sig (sz : Z) (sd : list Z) (P : token -> Prop) (h : mh) : Prop :=
  size h = sz /\ seed h = sd /\ mh_mode h = MULTI /\ wf h /\ is_signature sd (sz / 2) P (mins h).

Lemma push_sig junk sz sd P h t : Sig sz sd P h -> exists h', push junk h t = Ok h' /\ Sig sz sd (fun x => P x \/ x = t) h'.
Proof.
  intros (E1 & E2 & E3 & W & S). unfold push. rewrite E3. eexists. split; [reflexivity|].
  pose proof (half2 h W) as H2. destruct W as (W0 & W1 & W2).
  assert (Hh : 0 <= size h / 2) by lia.
  destruct (multi_fold h t (size h / 2) (mins h)) as (L & A); [lia|lia|].
  unfold push_multi, set_mins, Sig, wf. cbn [size seed mh_mode mins]. set (l' := fold_left _ _ _) in *.
  split; [auto|]. split; [auto|]. split; [auto|]. split; [lia|].
  eapply sig_push; eauto. intros i Hi. rewrite <- E1 in *. destruct (A i Hi) as (B1 & B2).
  replace (i <? size h / 2) with true in * by lia. rewrite hash_word, E2 in B1, B2. auto.
Qed.

Lemma push_all_sig junk sz sd ts : forall P h, Sig sz sd P h ->
  exists h', push_all junk h ts = Ok h' /\ Sig sz sd (fun x => P x \/ In x ts) h'.
Proof.
  induction ts as [|t ts IH]; intros P h S.
  - exists h. split; auto. destruct S as (A & B & C & D & E). split; [auto|]. split; [auto|]. split; [auto|]. split; [auto|].
    eapply sig_ext; [|exact E]. intros x. cbn [In]. tauto.
  - destruct (push_sig junk sz sd P h t S) as (h1 & E1 & S1). cbn [push_all]. rewrite E1. cbn [obind].
    destruct (IH _ _ S1) as (h' & E' & S'). exists h'. split; auto.
    destruct S' as (A & B & C & D & E). split; [auto|]. split; [auto|]. split; [auto|]. split; [auto|].
    eapply sig_ext; [|exact E]. intros x. cbn [In]. intuition congruence.
Qed.

Lemma init_sig sz sd : 0 <= sz -> sz mod 2 = 0 -> exists h, init sz MULTI sd = Ok h /\ Sig sz sd (fun _ => False) h.
Proof.
  intros H0 H. unfold init. rewrite (proj2 (Z.eqb_eq _ _) H). eexists. split; [reflexivity|].
  pose proof (Z.div_mod sz 2 ltac:(lia)). unfold Sig, wf. cbn [size seed mh_mode mins].
  split; [auto|]. split; [auto|]. split; [auto|]. split.
  - rewrite app_length, !repeat_length. lia.
  - replace (sz - sz / 2) with (sz / 2) by lia. apply sig_init. lia.
Qed.

(** ** Merge *)
Lemma merge_fold lt b (is : list Z) : forall l, NoDup is -> (forall i, In i is -> 0 <= i < Z.of_nat (length l)) ->
  let l' := fold_left (merge_step lt b) is l in
  length l' = length l /\ forall j, 0 <= j ->
    at_ l' j = if existsb (Z.eqb j) is then if lt (at_ b j) (at_ l j) then at_ b j else at_ l j else at_ l j.
Proof.
  induction is as [|i is IH]; intros l Hn Hr; cbn [fold_left]; [cbn; auto|].
  inversion Hn; subst. pose proof (Hr i (or_introl eq_refl)) as Hi.
  assert (L : length (merge_step lt b l i) = length l) by (unfold merge_step; destruct (lt _ _); auto using upd_length).
  destruct (IH (merge_step lt b l i)) as (L' & A); auto.
  { intros j Hj. rewrite L. apply Hr. right; auto. }
  split; [lia|]. intros j Hj. rewrite A by auto. cbn [existsb].
  destruct (Z.eqb_spec j i) as [->|Hne]; cbn [orb].
  - replace (existsb (Z.eqb i) is) with false.
    2:{ symmetry. apply not_true_is_false. intros X. apply existsb_exists in X. destruct X as (y & Hy & Ey).
        apply Z.eqb_eq in Ey. subst y. auto. }
    unfold merge_step. destruct (lt (at_ b i) (at_ l i)); auto. apply at_upd_eq. lia.
  - assert (E : at_ (merge_step lt b l i) j = at_ l j).
    { unfold merge_step. destruct (lt _ _); auto. apply at_upd_neq; lia. }
    rewrite E. reflexivity.
Qed.

Lemma zrange_NoDup n : NoDup (zrange n).
Proof. unfold zrange. apply FinFun.Injective_map_NoDup; [intros a b; lia|apply seq_NoDup]. Qed.

Lemma existsb_iff j is : existsb (Z.eqb j) is = true <-> In j is.
Proof.
  rewrite existsb_exists. split; [intros (x & H & E); apply Z.eqb_eq in E; subst; auto|].
  intros H. exists j. split; auto. apply Z.eqb_refl.
Qed.

Lemma merge_at a b : wf a -> wf b -> size a = size b -> mh_mode a = mh_mode b ->
  exists c, merge a b = Ok c /\ size c = size a /\ seed c = seed a /\ mh_mode c = mh_mode a /\ wf c /\
    forall i, 0 <= i < size a / 2 ->
      at_ (mins c) i = Z.min (at_ (mins a) i) (at_ (mins b) i) /\
      at_ (mins c) (size a / 2 + i) = (if i =? 0 then at_ (mins a) (size a / 2) else Z.max (at_ (mins a) (size a / 2 + i)) (at_ (mins b) (size a / 2 + i))).
Proof.
  intros Wa Wb Es Em. unfold merge. rewrite <- Em. replace (mode_eqb (mh_mode a) (mh_mode a)) with true by (destruct (mh_mode a); auto).
  cbn [negb]. pose proof (half2 a Wa) as H2. destruct Wa as (A0 & A1 & A2), Wb as (B0 & B1 & B2).
  replace (Z.of_nat (length (mins b)) <? size a) with false by lia. cbv zeta. eexists. split; [reflexivity|].
  set (half := size a / 2) in *.
  destruct (merge_fold Z.ltb (mins b) (zrange half) (mins a)) as (L1 & F1).
  { apply zrange_NoDup. } { intros i Hi. apply zrange_in in Hi. lia. }
  set (l1 := fold_left _ (zrange half) _) in *.
  set (is := map (fun i => half + 1 + i) (zrange (size a - (half + 1)))).
  assert (Iis : forall j, In j is <-> half + 1 <= j < size a).
  { intros j. unfold is. rewrite in_map_iff. split; [intros (x & <- & H); apply zrange_in in H; lia|].
    intros H. exists (j - half - 1). split; [lia|]. apply zrange_in. lia. }
  destruct (merge_fold Z.gtb (mins b) is l1) as (L2 & F2).
  { unfold is. apply FinFun.Injective_map_NoDup; [intros x y; lia|apply zrange_NoDup]. }
  { intros i Hi. apply Iis in Hi. lia. }
  set (l2 := fold_left _ is _) in *. unfold set_mins, wf. cbn [size seed mh_mode mins].
  split; [auto|]. split; [auto|]. split; [auto|]. split; [lia|]. intros i Hi. split.
  - rewrite F2 by lia. replace (existsb (Z.eqb i) is) with false
      by (symmetry; apply not_true_is_false; rewrite existsb_iff, Iis; lia).
    rewrite F1 by lia. replace (existsb (Z.eqb i) (zrange half)) with true by (symmetry; rewrite existsb_iff, zrange_in; lia).
    destruct (Z.ltb_spec (at_ (mins b) i) (at_ (mins a) i)); lia.
  - rewrite F2 by lia.
    assert (E1 : at_ l1 (half + i) = at_ (mins a) (half + i)).
    { rewrite F1 by lia. replace (existsb _ (zrange half)) with false; auto.
      symmetry. apply not_true_is_false. rewrite existsb_iff, zrange_in. lia. }
    rewrite E1. destruct (Z.eqb_spec i 0) as [->|Hn].
    + replace (existsb _ is) with false by (symmetry; apply not_true_is_false; rewrite existsb_iff, Iis; lia).
      f_equal. lia.
    + replace (existsb _ is) with true by (symmetry; rewrite existsb_iff, Iis; lia).
      rewrite Z.gtb_ltb. destruct (Z.ltb_spec (at_ (mins a) (half + i)) (at_ (mins b) (half + i))); lia.
Qed.

(** ** Similarity *)
Definition counted (m : mode) (a b : list Z) (i : Z) : bool :=
  (at_ a i =? at_ b i) && negb (negb (mode_eqb m MULTI) && ((at_ a i =? UMAX) || (at_ a i =? 0))).
Definition blank (m : mode) (a b : list Z) (i : Z) : bool :=
  (at_ a i =? at_ b i) && (negb (mode_eqb m MULTI) && ((at_ a i =? UMAX) || (at_ a i =? 0))).

Lemma sim_fold m a b n us : 0 <= n <= us -> us < 65536 ->
  fold_left (sim_step m a b) (zrange n) (us, 0) =
    (us - Z.of_nat (length (filter (blank m a b) (zrange n))), Z.of_nat (length (filter (counted m a b) (zrange n)))).
Proof.
  intros (Hn & Hle) Hus. revert n Hn Hle.
  apply (natlike_ind (fun n => n <= us -> fold_left (sim_step m a b) (zrange n) (us, 0) =
    (us - Z.of_nat (length (filter (blank m a b) (zrange n))), Z.of_nat (length (filter (counted m a b) (zrange n)))))).
  - intros _. cbn. f_equal. lia.
  - intros n Hn IH Hle. unfold Z.succ. rewrite zrange_S by lia. rewrite fold_left_app, IH by lia. cbn [fold_left].
    rewrite !filter_app, !app_length. cbn [filter].
    assert (B : Z.of_nat (length (filter (blank m a b) (zrange n))) <= n /\ Z.of_nat (length (filter (counted m a b) (zrange n))) <= n).
    { assert (F : forall P (l : list Z), (length (filter P l) <= length l)%nat).
      { induction l as [|x l IHl]; cbn; auto. destruct (P x); cbn; lia. }
      pose proof (F (blank m a b) (zrange n)). pose proof (F (counted m a b) (zrange n)).
      assert (length (zrange n) = Z.to_nat n) by (unfold zrange; rewrite map_length, seq_length; auto). lia. }
    set (nb := length (filter (blank m a b) (zrange n))) in *. set (nc := length (filter (counted m a b) (zrange n))) in *.
    clearbody nb nc. unfold sim_step, blank, counted. set (x := at_ a n). set (y := at_ b n).
    destruct (Z.eqb_spec x y) as [Exy|Nxy].
    + rewrite <- Exy. rewrite !orb_diag. destruct (mode_eqb m MULTI); cbn [negb andb].
      * cbn [length]. rewrite Nat.add_0_r, u16_id by lia. f_equal; lia.
      * destruct (Z.eqb_spec x UMAX) as [->|]; cbn [orb andb negb].
        -- rewrite Z.eqb_refl || idtac. cbn [length andb]. rewrite Nat.add_0_r, u16_id by lia. f_equal; lia.
        -- destruct (Z.eqb_spec x 0) as [->|]; cbn [orb andb negb length].
           ++ rewrite Nat.add_0_r, u16_id by lia. f_equal; lia.
           ++ rewrite Nat.add_0_r, u16_id by lia. f_equal; lia.
    + cbn [andb length]. rewrite !Nat.add_0_r. destruct (_ && _); [reflexivity|]. destruct (_ && _); reflexivity.
Qed.
