(** Proofs about the prefix trie. *)
From Verif Require Import Base Trie_Model Trie_Spec.
From Coq Require Import Sorted.

(** * Half bytes *)
Lemma half_range n k i : is_key n k -> 0 <= half k i < 16.
Proof.
  intros [_ F]. unfold half. assert (R : 0 <= nth (Nat.div2 i) k 0 < 256) by (destruct (nth_in_or_default (Nat.div2 i) k 0) as [H|H]; [rewrite Forall_forall in F; auto|rewrite H; lia]).
  destruct (Nat.even i); [|apply Z.mod_pos_bound; lia]. split; [apply Z.div_pos; lia|apply Z.div_lt_upper_bound; lia].
Qed.
Lemma nibble_half n k i : is_key n k -> nibble k (Z.of_nat i) = half k i.
Proof.
  intros [_ F]. unfold nibble, half. replace (Z.to_nat (Z.shiftr (Z.of_nat i) 1)) with (Nat.div2 i) by (rewrite <- Z.div2_spec, Nat.div2_div, Z.div2_div, <- (Nat2Z.id (i / 2)), Nat2Z.inj_div; reflexivity).
  assert (R : 0 <= nth (Nat.div2 i) k 0 < 256) by (destruct (nth_in_or_default (Nat.div2 i) k 0) as [H|H]; [rewrite Forall_forall in F; auto|rewrite H; lia]).
  set (b := nth (Nat.div2 i) k 0) in *. change 240 with (Z.shiftl (Z.ones 4) 4).
  assert (E : Z.land (Z.of_nat i) 1 = if Nat.even i then 0 else 1).
  { change 1 with (Z.ones 1) at 1. rewrite Z.land_ones by lia. change (2 ^ 1) with 2. rewrite (Nat.div2_odd i) at 1. rewrite <- Nat.negb_even. destruct (Nat.even i); cbn [negb Nat.b2n]; [replace (Z.of_nat (2 * Nat.div2 i + 0)) with (0 + Z.of_nat (Nat.div2 i) * 2) by lia|replace (Z.of_nat (2 * Nat.div2 i + 1)) with (1 + Z.of_nat (Nat.div2 i) * 2) by lia]; rewrite Z.mod_add; reflexivity || lia. }
  rewrite E. destruct (Nat.even i).
  - change (Z.shiftl 0 2) with 0. rewrite Z.shiftl_0_r. rewrite Z.shiftr_land, Z.shiftr_shiftl_l by lia. change (Z.shiftl (Z.ones 4) (4 - 4)) with (Z.ones 4). rewrite Z.land_ones by lia. rewrite Z.shiftr_div_pow2 by lia. change (2 ^ 4) with 16. apply Z.mod_small. split; [apply Z.div_pos; lia|apply Z.div_lt_upper_bound; lia].
  - change (Z.shiftl 1 2) with 4. rewrite Z.shiftr_land, !Z.shiftr_shiftl_l by lia. change (4 - 4) with 0. rewrite !Z.shiftl_0_r. rewrite Z.land_ones by lia. reflexivity.
Qed.
Definition agree (m : nat) (a b : list Z) : Prop := forall i, (i < m)%nat -> half a i = half b i.
Lemma agree_refl m a : agree m a a. Proof. intros i _. reflexivity. Qed.
Lemma agree_sym m a b : agree m a b -> agree m b a. Proof. intros H i Hi. symmetry. auto. Qed.
Lemma agree_trans m a b c : agree m a b -> agree m b c -> agree m a c. Proof. intros H H' i Hi. rewrite H by auto. auto. Qed.
Lemma agree_le m m' a b : (m' <= m)%nat -> agree m a b -> agree m' a b. Proof. intros H A i Hi. apply A. lia. Qed.
Lemma half_cons_lo b k i : half (b :: k) (S (S i)) = half k i. Proof. reflexivity. Qed.
(** the loop finds the first half byte that differs *)
Lemma first_diff_spec n k x : is_key n k -> is_key n x -> forall base, 0 <= base -> base + 8 * Z.of_nat n <= 65535 -> base mod 8 = 0 ->
  match first_diff k x base with
  | None => k = x
  | Some bits => exists m, (m < 2 * n)%nat /\ Z.shiftr bits 2 = base / 4 + Z.of_nat m /\ agree m k x /\ half k m <> half x m
  end.
Proof.
  intros [Lk Fk] [Lx Fx]. revert n x Lk Lx Fx. induction k as [|a k IH]; intros n x Lk Lx Fx base Hb Hn H8; destruct x as [|b x]; cbn [length] in *; subst n; try discriminate; cbn [first_diff]; [reflexivity|].
  inversion Fk as [|? ? Ha Fk']; subst. inversion Fx as [|? ? Hb' Fx']; subst. assert (Pos : 0 <= Z.lxor a b) by (apply Z.lxor_nonneg; lia).
  assert (D : Z.shiftr (Z.lxor a b) 4 = Z.lxor (a / 16) (b / 16)) by (rewrite Z.shiftr_lxor, !Z.shiftr_div_pow2 by lia; reflexivity).
  destruct (Z.ltb_spec 0 (Z.lxor a b)) as [G|G].
  - assert (NE : a <> b) by (intros ->; rewrite Z.lxor_nilpotent in G; lia).
    assert (Lt : Z.log2 (Z.lxor a b) < 8). { apply Z.log2_lt_pow2; [lia|]. destruct (Z.eq_dec (Z.shiftr (Z.lxor a b) 8) 0) as [E|E].
      - rewrite Z.shiftr_div_pow2 in E by lia. change (2 ^ 8) with 256 in *. apply Z.div_small_iff in E; lia.
      - exfalso. apply E. rewrite Z.shiftr_lxor, !Z.shiftr_div_pow2 by lia. change (2 ^ 8) with 256. rewrite !Z.div_small by lia. reflexivity. }
    pose proof (Z.log2_nonneg (Z.lxor a b)). set (l := Z.log2 (Z.lxor a b)) in *. rewrite u16_id by lia. rewrite Z.shiftr_div_pow2 by lia. change (2 ^ 2) with 4.
    assert (E8 : base = 8 * (base / 8)) by (rewrite (Z.div_mod base 8) at 1 by lia; lia). assert (E4 : base / 4 = 2 * (base / 8)) by (rewrite E8 at 1; replace (8 * (base / 8)) with (2 * (base / 8) * 4) by lia; apply Z.div_mul; lia).
    destruct (Z.le_gt_cases 4 l) as [H4|H4].
    + exists 0%nat. split; [lia|]. split.
      * rewrite E4. symmetry. apply Z.div_unique with (r := 7 - l); lia.
      * split; [intros i Hi; lia|]. cbn. intros E. assert (Z.shiftr (Z.lxor a b) 4 = 0) by (rewrite D, E, Z.lxor_nilpotent; reflexivity). rewrite Z.shiftr_div_pow2 in H0 by lia. change (2 ^ 4) with 16 in H0.
        apply Z.div_small_iff in H0; [|lia]. assert (l < 4) by (apply Z.log2_lt_pow2; [lia|]; change (2 ^ 4) with 16; lia). lia.
    + assert (Eh : a / 16 = b / 16). { apply Z.lxor_eq. rewrite <- D, Z.shiftr_div_pow2 by lia. apply Z.div_small. change (2 ^ 4) with 16. split; [lia|]. apply Z.log2_lt_pow2 in H4; [change (2 ^ 4) with 16 in H4; lia|lia]. }
      exists 1%nat. split; [lia|]. split.
      * rewrite E4. symmetry. apply Z.div_unique with (r := 3 - l); lia.
      * split; [intros i Hi; assert (i = 0%nat) as -> by lia; exact Eh|]. cbn. intros E. apply NE. rewrite (Z.div_mod a 16), (Z.div_mod b 16) by lia. lia.
  - assert (Eq : Z.lxor a b = 0) by lia. apply Z.lxor_eq in Eq. subst b. rewrite u16_id by lia. specialize (IH Fk' (length k) x eq_refl ltac:(lia) Fx' (base + 8) ltac:(lia) ltac:(lia) ltac:(rewrite Z.add_mod, H8 by lia; reflexivity)).
    destruct (first_diff k x (base + 8)) as [bits|]; [|congruence]. destruct IH as (m & Hm & Es & A & Nq). exists (S (S m)). split; [lia|]. split.
    + rewrite Es. replace ((base + 8) / 4) with (base / 4 + 2); [lia|]. replace (base + 8) with (base + 2 * 4) by lia. rewrite Z.div_add by lia. reflexivity.
    + split; [intros [|[|i]] Hi; try reflexivity; rewrite !half_cons_lo; apply A; lia|rewrite !half_cons_lo; exact Nq].
Qed.
Lemma halves_eq n a b : is_key n a -> is_key n b -> agree (2 * n) a b -> a = b.
Proof.
  intros [La Fa] [Lb Fb]. revert n b La Lb Fb. induction a as [|x a IH]; intros n b La Lb Fb A; destruct b as [|y b]; cbn [length] in *; subst n; try discriminate; auto.
  inversion Fa; subst. inversion Fb; subst. f_equal.
  - pose proof (A 0%nat ltac:(lia)) as A0. pose proof (A 1%nat ltac:(lia)) as A1. cbn in A0, A1. rewrite (Z.div_mod x 16), (Z.div_mod y 16) by lia. lia.
  - apply (IH ltac:(auto) (length a)); auto; try lia. intros i Hi. apply (A (S (S i))). lia.
Qed.
Lemma same_bytes_iff n a b : is_key n a -> is_key n b -> same_bytes a b = true <-> a = b.
Proof.
  intros [La _] [Lb _]. revert n b La Lb. induction a as [|x a IH]; intros n b La Lb; destruct b as [|y b]; cbn [length same_bytes] in *; subst n; try discriminate; [tauto|].
  rewrite andb_true_iff, (IH (length a) b) by lia. split; [intros [E ->]; f_equal; lia|intros [= -> ->]; split; [apply Z.eqb_refl|auto]].
Qed.

(** * Slots *)
Lemma at_nibble_eq {A B} (f : A -> B) none kids x : at_nibble f none kids x = match nth_error kids (Z.to_nat x) with Some (Some c) => f c | _ => none end.
Proof. unfold at_nibble. generalize (Z.to_nat x). induction kids as [|o kids IH]; intros [|m]; cbn; auto. Qed.
Lemma set_kid_len {A} (kids : list (option A)) i o : length (set_kid kids i o) = length kids.
Proof. revert i. induction kids as [|x kids IH]; intros [|i]; cbn; auto. Qed.
Lemma set_kid_nth {A} (kids : list (option A)) i o j : nth_error (set_kid kids i o) j = if (j =? i)%nat && (i <? length kids)%nat then Some o else nth_error kids j.
Proof.
  revert i j. induction kids as [|x kids IH]; intros [|i] [|j]; cbn [set_kid nth_error length]; auto.
  - rewrite andb_false_r. reflexivity.
  - rewrite IH. reflexivity.
Qed.
Lemma set_kid_same {A} (kids : list (option A)) i o : (i < length kids)%nat -> nth_error (set_kid kids i o) i = Some o.
Proof. intros H. rewrite set_kid_nth, Nat.eqb_refl. apply Nat.ltb_lt in H. rewrite H. reflexivity. Qed.
Lemma set_kid_other {A} (kids : list (option A)) i o j : j <> i -> nth_error (set_kid kids i o) j = nth_error kids j.
Proof. intros H. rewrite set_kid_nth. apply Nat.eqb_neq in H. rewrite H. reflexivity. Qed.
Lemma mask_empty_iff {A} (kids : list (option A)) : mask_empty kids = true <-> forall i c, nth_error kids i <> Some (Some c).
Proof.
  induction kids as [|[x|] kids IH]; cbn [mask_empty].
  - split; auto. intros _ [|i] c; discriminate.
  - split; [discriminate|]. intros H. exfalso. apply (H 0%nat x). reflexivity.
  - rewrite IH. split; [intros H [|i] c; [discriminate|apply H]|intros H i c; apply (H (S i) c)].
Qed.
Lemma mask_some {A} (kids : list (option A)) i c : nth_error kids i = Some (Some c) -> mask_empty kids = false.
Proof. intros H. destruct (mask_empty kids) eqn:E; auto. rewrite mask_empty_iff in E. exfalso. eapply E; eauto. Qed.
Lemma first_kid_eq {A B} (f : A -> B) none kids : mask_empty kids = false -> exists i c, nth_error kids i = Some (Some c) /\ first_kid f none kids = f c.
Proof.
  induction kids as [|[x|] kids IH]; cbn [mask_empty first_kid]; intros H; [discriminate|exists 0%nat, x; auto|]. destruct (IH H) as (i & c & E & F). exists (S i), c. auto.
Qed.

(** * Tries *)
Definition keys (t : trie) : list (list Z) := map fst (leaves t).
Lemma in_leaves kv s kids : In kv (leaves (Branch s kids)) <-> exists i c, nth_error kids i = Some (Some c) /\ In kv (leaves c).
Proof.
  cbn [leaves]. rewrite in_flat_map. split.
  - intros ([c|] & H & Hc); [|destruct Hc]. apply In_nth_error in H. destruct H as (i & E). eauto.
  - intros (i & c & E & H). exists (Some c). split; [eapply nth_error_In; eauto|exact H].
Qed.
Lemma in_keys y s kids : In y (keys (Branch s kids)) <-> exists i c, nth_error kids i = Some (Some c) /\ In y (keys c).
Proof.
  unfold keys. rewrite in_map_iff. split.
  - intros (kv & <- & H). apply in_leaves in H. destruct H as (i & c & E & H). exists i, c. split; auto. apply in_map_iff. eauto.
  - intros (i & c & E & H). apply in_map_iff in H. destruct H as (kv & <- & H). exists kv. split; auto. apply in_leaves. eauto.
Qed.
Inductive ok (n : nat) : nat -> trie -> Prop :=
| ok_leaf lo k v : is_key n k -> ok n lo (Leaf k v)
| ok_branch lo s kids : (lo <= s)%nat -> (s < 2 * n)%nat -> length kids = 16%nat -> mask_empty kids = false ->
    (forall i c, nth_error kids i = Some (Some c) -> ok n (S s) c) ->
    (forall i c y, nth_error kids i = Some (Some c) -> In y (keys c) -> half y s = Z.of_nat i) ->
    (forall y y', In y (keys (Branch (Z.of_nat s) kids)) -> In y' (keys (Branch (Z.of_nat s) kids)) -> agree s y y') ->
    ok n lo (Branch (Z.of_nat s) kids).
Lemma ok_lower n lo lo' t : ok n lo t -> (lo' <= lo)%nat -> ok n lo' t.
Proof. intros H L. inversion H; subst; constructor; auto. lia. Qed.
Lemma ok_keys n lo t : ok n lo t -> forall y, In y (keys t) -> is_key n y.
Proof.
  induction 1 as [lo k v W|lo s kids A B C D E IH F G]; intros y Hy; [destruct Hy as [<-|[]]; auto|]. apply in_keys in Hy. destruct Hy as (i & c & Ei & Hy). eapply IH; eauto.
Qed.
Lemma ok_some n lo t : ok n lo t -> exists kv, In kv (leaves t).
Proof.
  induction 1 as [lo k v W|lo s kids A B C D E IH F G]; [eexists; left; reflexivity|].
  destruct (first_kid_eq (fun c => c) (Leaf [] 0) kids D) as (i & c & Ei & _). destruct (IH i c Ei) as (kv & H). exists kv. apply in_leaves. eauto.
Qed.
Lemma key_leaf t y : In y (keys t) -> exists v, In (y, v) (leaves t).
Proof. unfold keys. intros H. apply in_map_iff in H. destruct H as ([k v] & <- & H). eauto. Qed.
Lemma leaf_key t y v : In (y, v) (leaves t) -> In y (keys t).
Proof. intros H. apply in_map_iff. exists (y, v). auto. Qed.
Lemma find_iff n lo t k v : is_key n k -> ok n lo t -> find_qpe t k = Some v <-> In (k, v) (leaves t).
Proof.
  intros W H. induction H as [lo k' v' W'|lo s kids A B C D E IH F G]; cbn [find_qpe leaves].
  - destruct (same_bytes k' k) eqn:Q; [apply (same_bytes_iff n) in Q; auto; subst; split; [intros [= ->]; left; auto|intros [[= ->]|[]]; auto]|].
    split; [discriminate|]. intros [[= -> ->]|[]]. rewrite (proj2 (same_bytes_iff n k k W W) eq_refl) in Q. discriminate.
  - rewrite at_nibble_eq, (nibble_half n k s W). split.
    + destruct (nth_error kids (Z.to_nat (half k s))) as [[c|]|] eqn:Q; try discriminate. intros Hf. apply (IH _ _ Q) in Hf. apply (in_leaves (k, v) (Z.of_nat s) kids). eauto.
    + intros Hin. apply (in_leaves (k, v) (Z.of_nat s) kids) in Hin. destruct Hin as (i & c & Ei & Hc). rewrite (F i c k Ei (leaf_key _ _ _ Hc)), Nat2Z.id, Ei. apply (IH _ _ Ei). exact Hc.
Qed.
Lemma leaves_fun n lo t k v v' : ok n lo t -> In (k, v) (leaves t) -> In (k, v') (leaves t) -> v = v'.
Proof. intros H A B. pose proof (ok_keys n lo t H k (leaf_key _ _ _ A)) as W. apply (find_iff n lo t k v W H) in A. apply (find_iff n lo t k v' W H) in B. congruence. Qed.

(** * The most similar leaf *)
Lemma similar_ok n k : is_key n k -> forall lo t, ok n lo t -> forall upd depth ins0, exists x ins, similar t k upd depth ins0 = Ok (x, ins) /\ In x (keys t) /\
  (upd = true -> forall y j, In y (keys t) -> agree j k y -> agree j k x).
Proof.
  intros W lo t H. induction H as [lo k' v' W'|lo s kids A B C D E IH F G]; intros upd depth ins0; cbn [similar].
  - exists k', ins0. split; auto. split; [left; auto|]. intros _ y j [<-|[]]. auto.
  - rewrite D, !at_nibble_eq, (nibble_half n k s W). destruct (nth_error kids (Z.to_nat (half k s))) as [[c|]|] eqn:Q.
    2,3: rewrite andb_false_r; destruct (first_kid_eq (fun c => similar c k false (S depth) ins0) UB kids D) as (i & c & Ei & ->); destruct (IH i c Ei false (S depth) ins0) as (x & ins & Es & Hx & _); exists x, ins; split; auto;
      (assert (Kx : In x (keys (Branch (Z.of_nat s) kids))) by (apply in_keys; eauto)); split; auto; intros _ y j Hy Aj;
      (assert (Hj : (j <= s)%nat) by (destruct (Nat.le_gt_cases j s); auto; exfalso; pose proof (Aj s ltac:(lia)) as Es'; apply in_keys in Hy; destruct Hy as (i' & c' & Ei' & Hy); rewrite (F i' c' y Ei' Hy) in Es'; rewrite Es', Nat2Z.id in Q; congruence));
      eapply agree_trans; [exact Aj|]; eapply agree_le; [exact Hj|]; apply G; auto.
    destruct upd; cbn [andb].
    + destruct (IH _ c Q true (S depth) depth) as (x & ins & Es & Hx & M). exists x, ins. split; auto. assert (Kx : In x (keys (Branch (Z.of_nat s) kids))) by (apply in_keys; eauto). split; auto. intros _ y j Hy Aj.
      apply in_keys in Hy as Hy'. destruct Hy' as (i & c' & Ei & Hc). destruct (Nat.eq_dec i (Z.to_nat (half k s))) as [->|Ni]; [rewrite Q in Ei; injection Ei as <-; apply (M eq_refl y); auto|].
      assert (Hj : (j <= s)%nat). { destruct (Nat.le_gt_cases j s); auto. exfalso. pose proof (Aj s ltac:(lia)) as Es'. rewrite (F i c' y Ei Hc) in Es'. apply Ni. rewrite Es', Nat2Z.id. reflexivity. }
      eapply agree_trans; [exact Aj|]. eapply agree_le; [exact Hj|]. apply G; auto.
    + destruct (first_kid_eq (fun c => similar c k false (S depth) ins0) UB kids D) as (i & c' & Ei & ->). destruct (IH i c' Ei false (S depth) ins0) as (x & ins & Es & Hx & _). exists x, ins. split; auto. split; [apply in_keys; eauto|discriminate].
Qed.
Inductive passes (k : list Z) (m : nat) : nat -> trie -> Prop :=
| pass_O t : passes k m 0 t
| pass_S d s kids c : (s < m)%nat -> nth_error kids (Z.to_nat (nibble k (Z.of_nat s))) = Some (Some c) -> passes k m d c -> passes k m (S d) (Branch (Z.of_nat s) kids).
Lemma below_passes k x m v : forall d t, passes k m d t -> place_below t d k x (Z.of_nat m) v = place t k x (Z.of_nat m) v.
Proof.
  induction 1 as [t|d s kids c H E P IH]; [destruct t; reflexivity|]. cbn [place_below place]. replace (Z.of_nat m =? Z.of_nat s) with false by lia. replace (Z.of_nat m <? Z.of_nat s) with false by lia. rewrite !at_nibble_eq, E, IH. reflexivity.
Qed.
Lemma similar_false n k : is_key n k -> forall lo t, ok n lo t -> forall depth ins0 x ins, similar t k false depth ins0 = Ok (x, ins) -> ins = ins0.
Proof.
  intros W lo t H. induction H as [lo k' v' W'|lo s kids A B C D E IH F G]; intros depth ins0 x ins; cbn [similar]; [intros [= _ <-]; auto|]. rewrite D. cbn [andb].
  destruct (first_kid_eq (fun c => similar c k false (S depth) ins0) UB kids D) as (i & c & Ei & ->). apply IH with (i := i). exact Ei.
Qed.
Lemma similar_passes n k m : is_key n k -> forall lo t, ok n lo t -> forall depth ins0 x ins, similar t k true depth ins0 = Ok (x, ins) -> agree m k x -> half k m <> half x m -> loosely k x ->
  ins = ins0 \/ ((depth <= ins)%nat /\ passes k m (ins - depth) t /\ exists s kids, t = Branch (Z.of_nat s) kids /\ (lo <= s < 2 * n)%nat /\ half k s = half x s).
Proof.
  intros W lo t H. induction H as [lo k' v' W'|lo s kids A B C D E IH F G]; intros depth ins0 x ins; cbn [similar]; [intros [= _ <-]; auto|]. intros Es Ag Nq Lo. rewrite D in Es. cbn [andb] in Es. rewrite !at_nibble_eq, (nibble_half n k s W) in Es.
  destruct (nth_error kids (Z.to_nat (half k s))) as [[c|]|] eqn:Q.
  2,3: left; destruct (first_kid_eq (fun c => similar c k false (S depth) ins0) UB kids D) as (i & c & Ei & Ef); rewrite Ef in Es; apply (similar_false n k W (S s) c (E i c Ei)) in Es; auto.
  right. assert (Hx : half k s = half x s).
  { destruct (similar_ok n k W (S s) c (E _ c Q) true (S depth) depth) as (x' & ins' & Es' & Hx' & _). rewrite Es in Es'. injection Es' as <- <-. rewrite (F _ c x Q Hx'), Z2Nat.id by apply (half_range n k s W). reflexivity. }
  destruct (IH _ c Q (S depth) depth x ins Es Ag Nq Lo) as [->|(L & P & s' & kids' & -> & Hs' & Hx')].
  - split; [lia|]. rewrite Nat.sub_diag. split; [constructor|]. eauto 6.
  - split; [lia|]. split; [|eauto 6]. replace (ins - depth)%nat with (S (ins - S depth)) by lia. apply pass_S with (c := Branch (Z.of_nat s') kids'); auto; [|rewrite (nibble_half n k s W); auto].
    destruct (Nat.lt_ge_cases s m); auto. exfalso. assert (s <> m) by (intros ->; auto). destruct W as [Lk _]. apply (Lo m s s'); auto; lia.
Qed.

(** * Placing a new leaf *)
Lemma half_in n k kids s : is_key n k -> length kids = 16%nat -> (Z.to_nat (half k s) < @length (option trie) kids)%nat.
Proof. intros W ->. pose proof (half_range n k s W). lia. Qed.
Lemma in_set_kid kv s kids i t' : (i < length kids)%nat -> In kv (leaves (Branch s (set_kid kids i (Some t')))) <-> In kv (leaves t') \/ (exists j c, j <> i /\ nth_error kids j = Some (Some c) /\ In kv (leaves c)).
Proof.
  intros Hi. rewrite in_leaves. split.
  - intros (j & c & E & H). destruct (Nat.eq_dec j i) as [->|N]; [rewrite set_kid_same in E by auto; injection E as ->; auto|]. rewrite set_kid_other in E by auto. right. eauto 6.
  - intros [H|(j & c & N & E & H)]; [exists i, t'; rewrite set_kid_same by auto; auto|exists j, c; rewrite set_kid_other by auto; auto].
Qed.
Lemma new_branch_ok n lo t k x m v : ok n (S m) t -> is_key n k -> In x (keys t) -> (lo <= m)%nat -> (m < 2 * n)%nat -> agree m k x -> half k m <> half x m ->
  (forall y, In y (keys t) -> agree (S m) y x) ->
  ok n lo (new_branch t k x (Z.of_nat m) v) /\ forall kv, In kv (leaves (new_branch t k x (Z.of_nat m) v)) <-> kv = (k, v) \/ In kv (leaves t).
Proof.
  intros H W Hx Hlo Hm Ag Nq All. assert (Wx : is_key n x) by (eapply ok_keys; eauto). pose proof (half_range n k m W) as Rk. pose proof (half_range n x m Wx) as Rx.
  unfold new_branch. rewrite (nibble_half n k m W), (nibble_half n x m Wx). set (a := Z.to_nat (half x m)). set (b := Z.to_nat (half k m)). assert (Nab : a <> b) by (unfold a, b; lia).
  assert (L0 : length no_kids = 16%nat) by reflexivity.
  assert (N0 : forall j c, nth_error no_kids j <> Some (Some c)).
  { intros j c Q. apply nth_error_In in Q. unfold no_kids in Q. apply repeat_spec in Q. discriminate. }
  set (kids := set_kid (set_kid no_kids a (Some t)) b (Some (Leaf k v))).
  assert (Nth : forall j c, nth_error kids j = Some (Some c) -> (j = b /\ c = Leaf k v) \/ (j = a /\ c = t)).
  { intros j c. unfold kids. destruct (Nat.eq_dec j b) as [->|N]; [rewrite set_kid_same by (rewrite set_kid_len, L0; unfold b; lia); intros [= <-]; auto|]. rewrite set_kid_other by auto.
    destruct (Nat.eq_dec j a) as [->|N']; [rewrite set_kid_same by (rewrite L0; unfold a; lia); intros [= <-]; auto|]. rewrite set_kid_other by auto. intros Q. exfalso. eapply N0; eauto. }
  assert (Nb : nth_error kids b = Some (Some (Leaf k v))) by (unfold kids; apply set_kid_same; rewrite set_kid_len, L0; unfold b; lia).
  assert (Na : nth_error kids a = Some (Some t)) by (unfold kids; rewrite set_kid_other by auto; apply set_kid_same; rewrite L0; unfold a; lia).
  split.
  - constructor; auto.
    + unfold kids. rewrite !set_kid_len. exact L0.
    + eapply mask_some; eauto.
    + intros j c E. apply Nth in E. destruct E as [[_ ->]|[_ ->]]; [constructor; auto|auto].
    + intros j c y E Hy. apply Nth in E. destruct E as [[-> ->]|[-> ->]].
      * destruct Hy as [<-|[]]. unfold b. rewrite Z2Nat.id by lia. reflexivity.
      * unfold a. rewrite Z2Nat.id by lia. apply (All y Hy). lia.
    + assert (Q : forall y, In y (keys (Branch (Z.of_nat m) kids)) -> agree m y x).
      { intros y Hy. apply in_keys in Hy. destruct Hy as (j & c & E & Hy). apply Nth in E. destruct E as [[_ ->]|[_ ->]]; [destruct Hy as [<-|[]]; auto|eapply agree_le; [|apply All; auto]; lia]. }
      intros y y' Hy Hy'. eapply agree_trans; [apply Q; auto|apply agree_sym, Q; auto].
  - intros kv. rewrite in_leaves. split.
    + intros (j & c & E & Hc). apply Nth in E. destruct E as [[_ ->]|[_ ->]]; [destruct Hc as [<-|[]]; auto|auto].
    + intros [->|Hc]; [exists b, (Leaf k v); split; auto; left; auto|eauto].
Qed.
Lemma place_ok n k x m v : is_key n k -> (m < 2 * n)%nat -> agree m k x -> half k m <> half x m -> forall lo t, ok n lo t -> In x (keys t) -> (lo <= m)%nat ->
  (forall y, In y (keys t) -> ~ agree (S m) k y) ->
  exists t', place t k x (Z.of_nat m) v = Ok t' /\ ok n lo t' /\ forall kv, In kv (leaves t') <-> kv = (k, v) \/ In kv (leaves t).
Proof.
  intros W Hm Ag Nq lo t H. induction H as [lo k' v' W'|lo s kids A B C D E IH F G]; intros Hx Hlo No; cbn [place].
  - eexists. split; [reflexivity|]. destruct Hx as [Hx|[]]. cbn [fst] in Hx. subst k'. apply (new_branch_ok n lo (Leaf x v') k x m v); auto.
    + constructor; auto.
    + left. reflexivity.
    + intros y [<-|[]]. apply agree_refl.
  - assert (Lk : (Z.to_nat (half k s) < length kids)%nat) by (apply (half_in n); auto). rewrite at_nibble_eq. rewrite at_nibble_eq. rewrite (nibble_half n k s W). destruct (Z.eqb_spec (Z.of_nat m) (Z.of_nat s)) as [Em|Em]; [assert (m = s) by lia; subst s; clear Em|].
    + assert (None_ : forall c, nth_error kids (Z.to_nat (half k m)) <> Some (Some c)).
      { intros c Q. destruct (ok_some n (S m) c (E _ c Q)) as ([y w] & Hy). apply leaf_key in Hy. assert (Ky : In y (keys (Branch (Z.of_nat m) kids))) by (apply in_keys; eauto). apply (No y Ky). intros i Hi. destruct (Nat.eq_dec i m) as [->|Ni].
        - rewrite (F _ c y Q Hy), Z2Nat.id by apply (half_range n k m W). reflexivity.
        - rewrite (Ag i) by lia. apply (G x y Hx Ky). lia. }
      replace (match nth_error kids (Z.to_nat (half k m)) with Some (Some _) => true | _ => false end) with false by (destruct (nth_error kids (Z.to_nat (half k m))) as [[c|]|] eqn:Q; auto; exfalso; eapply None_; eauto).
      eexists. split; [reflexivity|]. set (b := Z.to_nat (half k m)) in *. assert (IL : forall kv, In kv (leaves (Branch (Z.of_nat m) (set_kid kids b (Some (Leaf k v))))) <-> kv = (k, v) \/ In kv (leaves (Branch (Z.of_nat m) kids))).
      { intros kv. rewrite in_set_kid by auto. rewrite in_leaves. split.
        - intros [[<-|[]]|(j & c & N & Q & Hc)]; [auto|eauto].
        - intros [->|(j & c & Q & Hc)]; [left; left; auto|]. right. exists j, c. split; auto. intros ->. eapply None_; eauto. }
      split; [|exact IL]. constructor; auto.
      * rewrite set_kid_len. auto.
      * eapply mask_some. apply set_kid_same. auto.
      * intros j c Q. destruct (Nat.eq_dec j b) as [->|N]; [rewrite set_kid_same in Q by auto; injection Q as <-; constructor; auto|rewrite set_kid_other in Q by auto; eauto].
      * intros j c y Q Hy. destruct (Nat.eq_dec j b) as [->|N]; [rewrite set_kid_same in Q by auto; injection Q as <-; destruct Hy as [<-|[]]; unfold b; rewrite Z2Nat.id by apply (half_range n k m W); reflexivity|rewrite set_kid_other in Q by auto; eauto].
      * assert (Q : forall y, In y (keys (Branch (Z.of_nat m) (set_kid kids b (Some (Leaf k v))))) -> agree m y x).
        { intros y Hy. apply key_leaf in Hy. destruct Hy as (w & Hy). apply IL in Hy. destruct Hy as [[= -> ->]|Hy]; [auto|]. apply (G y x (leaf_key _ _ _ Hy) Hx). }
        intros y y' Hy Hy'. eapply agree_trans; [apply Q; auto|apply agree_sym, Q; auto].
    + destruct (Z.ltb_spec (Z.of_nat m) (Z.of_nat s)) as [L|L].
      * eexists. split; [reflexivity|]. apply new_branch_ok; auto.
        -- apply (ok_lower n s); [|lia]. constructor; auto.
        -- intros y Hy. eapply agree_le; [|apply (G y x Hy Hx)]. lia.
      * assert (Hs : half k s = half x s) by (apply Ag; lia). apply in_keys in Hx as Hx'. destruct Hx' as (i & c & Q & Hc). pose proof (F i c x Q Hc) as Hi. rewrite Hs, Hi, Nat2Z.id, Q.
        destruct (IH i c Q Hc ltac:(lia)) as (c' & Ec & Oc & Ic); [intros y Hy; apply No; apply in_keys; eauto|]. rewrite Ec. cbn [obind]. eexists. split; [reflexivity|].
        assert (Li : (i < length kids)%nat) by (apply nth_error_Some; congruence).
        assert (IL : forall kv, In kv (leaves (Branch (Z.of_nat s) (set_kid kids i (Some c')))) <-> kv = (k, v) \/ In kv (leaves (Branch (Z.of_nat s) kids))).
        { intros kv. rewrite in_set_kid by auto. rewrite in_leaves, Ic. split.
          - intros [[->|H]|(j & c2 & N & Q2 & H)]; eauto 6.
          - intros [->|(j & c2 & Q2 & H)]; [auto|]. destruct (Nat.eq_dec j i) as [->|N]; [rewrite Q in Q2; injection Q2 as <-; auto|eauto 6]. }
        split; [|exact IL]. constructor; auto.
        -- rewrite set_kid_len. auto.
        -- eapply mask_some. apply set_kid_same. auto.
        -- intros j c2 Q2. destruct (Nat.eq_dec j i) as [->|N]; [rewrite set_kid_same in Q2 by auto; injection Q2 as <-; auto|rewrite set_kid_other in Q2 by auto; eauto].
        -- intros j c2 y Q2 Hy. destruct (Nat.eq_dec j i) as [->|N]; [rewrite set_kid_same in Q2 by auto; injection Q2 as <-|rewrite set_kid_other in Q2 by auto; eauto].
           apply key_leaf in Hy. destruct Hy as (w & Hy). apply Ic in Hy. destruct Hy as [[= -> ->]|Hy]; [congruence|]. apply (F i c y Q (leaf_key _ _ _ Hy)).
        -- assert (QA : forall y, In y (keys (Branch (Z.of_nat s) (set_kid kids i (Some c')))) -> agree s y x).
           { intros y Hy. apply key_leaf in Hy. destruct Hy as (w & Hy). apply IL in Hy. destruct Hy as [[= -> ->]|Hy]; [eapply agree_le; [|exact Ag]; lia|]. apply (G y x (leaf_key _ _ _ Hy) Hx). }
           intros y y' Hy Hy'. eapply agree_trans; [apply QA; auto|apply agree_sym, QA; auto].
Qed.

(** * Changing the data of a leaf *)
Lemma change_ok n k f : is_key n k -> forall lo t, ok n lo t -> In k (keys t) ->
  ok n lo (change t k true f) /\ (forall y w, In (y, w) (leaves (change t k true f)) <-> (y <> k /\ In (y, w) (leaves t)) \/ (y = k /\ exists u, In (k, u) (leaves t) /\ w = f u)).
Proof.
  intros W lo t H. induction H as [lo k' v' W'|lo s kids A B C D E IH F G]; intros Hk; cbn [change].
  - destruct Hk as [Hk|[]]. cbn [fst] in Hk. subst k'. split; [constructor; auto|]. intros y w. cbn [leaves In]. split.
    + intros [[= <- <-]|[]]. right. split; auto. eauto.
    + intros [[N [[= <- <-]|[]]]|[-> (u & [[= <-]|[]] & ->)]]; [congruence|auto].
  - apply in_keys in Hk as Hk'. destruct Hk' as (i & c & Q & Hc). pose proof (F i c k Q Hc) as Hi. cbn [andb]. rewrite !at_nibble_eq, (nibble_half n k s W), Hi, Nat2Z.id, Q. destruct (IH i c Q Hc) as [Oc Ic]. set (c' := change c k true f) in *.
    assert (Li : (i < length kids)%nat) by (apply nth_error_Some; congruence).
    assert (Other : forall j c2 w, nth_error kids j = Some (Some c2) -> In (k, w) (leaves c2) -> j = i) by (intros j c2 w Q2 H2; apply leaf_key in H2; pose proof (F j c2 k Q2 H2); lia).
    assert (IL : forall y w, In (y, w) (leaves (Branch (Z.of_nat s) (set_kid kids i (Some c')))) <-> (y <> k /\ In (y, w) (leaves (Branch (Z.of_nat s) kids))) \/ (y = k /\ exists u, In (k, u) (leaves (Branch (Z.of_nat s) kids)) /\ w = f u)).
    { intros y w. rewrite in_set_kid by auto. rewrite Ic. split.
      - intros [[[N H]|[-> (u & H & ->)]]|(j & c2 & N & Q2 & H)].
        + left. split; auto. apply in_leaves. eauto.
        + right. split; auto. exists u. split; auto. apply in_leaves. eauto.
        + left. split; [intros ->; apply N; eapply Other; eauto|]. apply in_leaves. eauto.
      - intros [[N H]|[-> (u & H & ->)]]; apply in_leaves in H; destruct H as (j & c2 & Q2 & H).
        + destruct (Nat.eq_dec j i) as [->|Nj]; [rewrite Q in Q2; injection Q2 as <-; auto|right; eauto 6].
        + assert (j = i) by (eapply Other; eauto). subst j. rewrite Q in Q2. injection Q2 as <-. left. right. eauto. }
    assert (KL : forall y, In y (keys c') -> In y (keys c)).
    { intros y Hy. apply key_leaf in Hy. destruct Hy as (w & Hy). apply Ic in Hy. destruct Hy as [[_ Hy]|[-> _]]; [eapply leaf_key; eauto|auto]. }
    assert (KB : forall y, In y (keys (Branch (Z.of_nat s) (set_kid kids i (Some c')))) -> In y (keys (Branch (Z.of_nat s) kids))).
    { intros y Hy. apply key_leaf in Hy. destruct Hy as (w & Hy). apply IL in Hy. destruct Hy as [[_ Hy]|[-> _]]; [eapply leaf_key; eauto|auto]. }
    split; [|exact IL]. constructor; auto.
    + rewrite set_kid_len. auto.
    + eapply mask_some. apply set_kid_same. auto.
    + intros j c2 Q2. destruct (Nat.eq_dec j i) as [->|N]; [rewrite set_kid_same in Q2 by auto; injection Q2 as <-; auto|rewrite set_kid_other in Q2 by auto; eauto].
    + intros j c2 y Q2 Hy. destruct (Nat.eq_dec j i) as [->|N]; [rewrite set_kid_same in Q2 by auto; injection Q2 as <-; eapply F; eauto|rewrite set_kid_other in Q2 by auto; eauto].
Qed.

(** * Deleting *)
Lemma delete_ok n k : is_key n k -> forall lo t, ok n lo t ->
  match delete_below t k with
  | (o, Missing) => o = Some t /\ ~ In k (keys t)
  | (None, d) => exists v, leaves t = [(k, v)] /\ (d = Data v \/ d = Dangling)
  | (Some t', d) => ok n lo t' /\ (exists v, In (k, v) (leaves t) /\ (d = Data v \/ d = Dangling)) /\ (forall y w, In (y, w) (leaves t') <-> y <> k /\ In (y, w) (leaves t))
  end.
Proof.
  intros W lo t H. induction H as [lo k' v' W'|lo s kids A B C D E IH F G]; cbn [delete_below].
  - destruct (same_bytes k' k) eqn:Q; [apply (same_bytes_iff n) in Q; auto; subst; exists v'; auto|]. split; auto. intros [Hk|[]]. cbn [fst] in Hk. subst k'. rewrite (proj2 (same_bytes_iff n k k W W) eq_refl) in Q. discriminate.
  - rewrite at_nibble_eq, (nibble_half n k s W). pose proof (half_range n k s W) as Rk. destruct (nth_error kids (Z.to_nat (half k s))) as [[c|]|] eqn:Q.
    2,3: split; auto; intros Hk; apply in_keys in Hk; destruct Hk as (i & c & Ei & Hk); pose proof (F i c k Ei Hk) as Hi; rewrite Hi, Nat2Z.id in Q; congruence.
    set (i := Z.to_nat (half k s)) in *. assert (Li : (i < length kids)%nat) by (apply nth_error_Some; congruence). specialize (IH i c Q).
    assert (Other : forall j c2, nth_error kids j = Some (Some c2) -> In k (keys c2) -> j = i) by (intros j c2 Q2 H2; pose proof (F j c2 k Q2 H2); unfold i; lia).
    assert (Sub : forall o, (forall c', o = Some c' -> ok n (S s) c' /\ forall y, In y (keys c') -> In y (keys c)) -> mask_empty (set_kid kids i o) = false -> ok n lo (Branch (Z.of_nat s) (set_kid kids i o))).
    { intros o Ho Me. assert (KB : forall y, In y (keys (Branch (Z.of_nat s) (set_kid kids i o))) -> In y (keys (Branch (Z.of_nat s) kids))).
      { intros y Hy. apply in_keys in Hy. destruct Hy as (j & c2 & Q2 & Hy). apply in_keys. destruct (Nat.eq_dec j i) as [->|N]; [rewrite set_kid_same in Q2 by auto; injection Q2 as ->; exists i, c; split; auto; apply (Ho c2 eq_refl); auto|rewrite set_kid_other in Q2 by auto; eauto]. }
      constructor; auto.
      - rewrite set_kid_len. auto.
      - intros j c2 Q2. destruct (Nat.eq_dec j i) as [->|N]; [rewrite set_kid_same in Q2 by auto; injection Q2 as ->; apply (Ho c2 eq_refl)|rewrite set_kid_other in Q2 by auto; eauto].
      - intros j c2 y Q2 Hy. destruct (Nat.eq_dec j i) as [->|N]; [rewrite set_kid_same in Q2 by auto; injection Q2 as ->; eapply F; [exact Q|]; apply (Ho c2 eq_refl); auto|rewrite set_kid_other in Q2 by auto; eauto]. }
    destruct (delete_below c k) as [[c'|] d]; destruct d as [v| |].
    1,2: destruct IH as (Oc & (w & Hw & Dw) & Ic).
    1,2: assert (KL : forall y, In y (keys c') -> In y (keys c)) by (intros y Hy; apply key_leaf in Hy; destruct Hy as (u & Hy); apply Ic in Hy; eapply leaf_key; apply Hy).
    1,2: assert (Me : mask_empty (set_kid kids i (Some c')) = false) by (eapply mask_some; apply set_kid_same; auto); rewrite Me.
    1,2: split; [apply Sub; auto; intros c2 [= <-]; auto|].
    1,2: split; [exists w; split; [apply (in_leaves (k, w) (Z.of_nat s) kids); eauto|auto]|].
    1,2: intros y u; rewrite in_set_kid by auto; rewrite Ic, (in_leaves (y, u) (Z.of_nat s) kids); split;
      [intros [[N H]|(j & c2 & N & Q2 & H)]; [split; auto; eauto|split; [intros ->; apply N; eapply Other; eauto; eapply leaf_key; eauto|eauto]]
      |intros [N (j & c2 & Q2 & H)]; destruct (Nat.eq_dec j i) as [->|Nj]; [rewrite Q in Q2; injection Q2 as <-; auto|right; eauto 6]].
    + destruct IH as [_ Nk]. split; auto. intros Hk. apply in_keys in Hk. destruct Hk as (j & c2 & Q2 & Hk). assert (j = i) by (eapply Other; eauto). subst j. rewrite Q in Q2. injection Q2 as <-. auto.
    + destruct IH as (w & Lw & Dw). destruct (mask_empty (set_kid kids i None)) eqn:Me.
      * exists w. split; [|auto]. rewrite mask_empty_iff in Me. cbn [leaves]. assert (On : forall j c2, nth_error kids j = Some (Some c2) -> j = i). { intros j c2 Q2. destruct (Nat.eq_dec j i); auto. exfalso. apply (Me j c2). rewrite set_kid_other by auto. auto. }
        clear - On Q Lw. revert Q On. generalize i. clear i. induction kids as [|o kids IH]; intros [|i] Q On; cbn [nth_error] in Q; try discriminate.
        -- injection Q as ->. cbn [flat_map]. rewrite Lw. replace (flat_map _ kids) with (@nil (list Z * Z)); [reflexivity|]. symmetry. assert (No : forall j c2, nth_error kids j <> Some (Some c2)) by (intros j c2 Q2; specialize (On (S j) c2 Q2); discriminate). clear - No. induction kids as [|[c|] kids IH]; [reflexivity|exfalso; apply (No 0%nat c); reflexivity|cbn [flat_map app]; apply IH; intros j c2; apply (No (S j) c2)].
        -- destruct o as [c0|]; [specialize (On 0%nat c0 eq_refl); discriminate|]. cbn [flat_map app]. apply (IH i Q). intros j c2 Q2. specialize (On (S j) c2 Q2). lia.
      * split; [apply Sub; auto; discriminate|]. split; [exists w; split; auto; apply (in_leaves (k, w) (Z.of_nat s) kids); exists i, c; rewrite Lw; split; [auto|left; auto]|].
        intros y u. rewrite !in_leaves. split.
        -- intros (j & c2 & Q2 & H). destruct (Nat.eq_dec j i) as [->|Nj]; [rewrite set_kid_same in Q2 by auto; discriminate|]. rewrite set_kid_other in Q2 by auto. split; [intros ->; apply Nj; eapply Other; eauto; eapply leaf_key; eauto|eauto].
        -- intros [N (j & c2 & Q2 & H)]. destruct (Nat.eq_dec j i) as [->|Nj]; [rewrite Q in Q2; injection Q2 as <-; rewrite Lw in H; destruct H as [[= <- <-]|[]]; congruence|]. exists j, c2. rewrite set_kid_other by auto. auto.
    + destruct IH as (w & Lw & Dw). destruct (mask_empty (set_kid kids i None)) eqn:Me.
      * exists w. split; [|auto]. rewrite mask_empty_iff in Me. cbn [leaves]. assert (On : forall j c2, nth_error kids j = Some (Some c2) -> j = i). { intros j c2 Q2. destruct (Nat.eq_dec j i); auto. exfalso. apply (Me j c2). rewrite set_kid_other by auto. auto. }
        clear - On Q Lw. revert Q On. generalize i. clear i. induction kids as [|o kids IH]; intros [|i] Q On; cbn [nth_error] in Q; try discriminate.
        -- injection Q as ->. cbn [flat_map]. rewrite Lw. replace (flat_map _ kids) with (@nil (list Z * Z)); [reflexivity|]. symmetry. assert (No : forall j c2, nth_error kids j <> Some (Some c2)) by (intros j c2 Q2; specialize (On (S j) c2 Q2); discriminate). clear - No. induction kids as [|[c|] kids IH]; [reflexivity|exfalso; apply (No 0%nat c); reflexivity|cbn [flat_map app]; apply IH; intros j c2; apply (No (S j) c2)].
        -- destruct o as [c0|]; [specialize (On 0%nat c0 eq_refl); discriminate|]. cbn [flat_map app]. apply (IH i Q). intros j c2 Q2. specialize (On (S j) c2 Q2). lia.
      * split; [apply Sub; auto; discriminate|]. split; [exists w; split; auto; apply (in_leaves (k, w) (Z.of_nat s) kids); exists i, c; rewrite Lw; split; [auto|left; auto]|].
        intros y u. rewrite !in_leaves. split.
        -- intros (j & c2 & Q2 & H). destruct (Nat.eq_dec j i) as [->|Nj]; [rewrite set_kid_same in Q2 by auto; discriminate|]. rewrite set_kid_other in Q2 by auto. split; [intros ->; apply Nj; eapply Other; eauto; eapply leaf_key; eauto|eauto].
        -- intros [N (j & c2 & Q2 & H)]. destruct (Nat.eq_dec j i) as [->|Nj]; [rewrite Q in Q2; injection Q2 as <-; rewrite Lw in H; destruct H as [[= <- <-]|[]]; congruence|]. exists j, c2. rewrite set_kid_other by auto. auto.
    + destruct IH as [X _]. discriminate X.
Qed.

(** * Histories *)
Lemma key_eq_iff a b : key_eq a b = true <-> a = b.
Proof. unfold key_eq. destruct (list_eq_dec Z.eq_dec a b); split; auto; discriminate. Qed.
Lemma put_same m k o : put m k o k = o.
Proof. unfold put. rewrite (proj2 (key_eq_iff k k) eq_refl). reflexivity. Qed.
Lemma put_other m k o x : x <> k -> put m k o x = m x.
Proof. intros N. unfold put. destruct (key_eq x k) eqn:E; auto. apply key_eq_iff in E. congruence. Qed.
Definition rep (n : nat) (t : option trie) (m : fmap) : Prop :=
  match t with
  | None => forall k, m k = None
  | Some t => ok n 0 t /\ forall k v, In (k, v) (leaves t) <-> m k = Some v
  end.
Lemma rep_find n t m k : rep n t m -> is_key n k -> find t k = m k.
Proof.
  intros R W. destruct t as [t|]; cbn [find rep] in *; [|rewrite R; auto]. destruct R as [O L]. destruct (m k) as [v|] eqn:E.
  - apply (find_iff n 0 t k v W O). apply L. auto.
  - destruct (find_qpe t k) as [v|] eqn:Q; auto. apply (find_iff n 0 t k v W O) in Q. apply L in Q. congruence.
Qed.
Lemma rep_ins n t m k f : (1 <= n)%nat -> Z.of_nat n <= 8191 -> rep n t m -> is_key n k -> (m k = None -> forall x, m x <> None -> loosely k x) ->
  exists t', insert t k f = Ok t' /\ rep n t' (act m (Ins k f)).
Proof.
  intros Hn Hb R W Lo. destruct t as [t|]; cbn [insert rep] in *.
  - destruct R as [O L]. destruct (similar_ok n k W 0 t O true 0 0) as (x & ins & Es & Hx & M). rewrite Es. cbn [obind].
    assert (Wx : is_key n x) by (eapply ok_keys; eauto). pose proof (first_diff_spec n k x W Wx 0 ltac:(lia) ltac:(lia) eq_refl) as D. destruct (first_diff k x 0) as [bits|].
    + destruct D as (d & Hd & Ed & Ag & Nq). rewrite Ed. change (0 / 4 + Z.of_nat d) with (Z.of_nat d).
      assert (No : forall y, In y (keys t) -> ~ agree (S d) k y) by (intros y Hy A; apply Nq; apply (M eq_refl y (S d) Hy A); lia).
      assert (Nk : m k = None). { destruct (m k) as [v|] eqn:E; auto. exfalso. apply L in E. apply (No k (leaf_key _ _ _ E)). apply agree_refl. }
      assert (Lx : loosely k x). { apply Lo; auto. apply key_leaf in Hx. destruct Hx as (v & Hx). apply L in Hx. congruence. }
      assert (P : passes k d ins t). { destruct (similar_passes n k d W 0 t O 0 0 x ins Es Ag Nq Lx) as [->|(_ & P & _)]; [constructor|rewrite Nat.sub_0_r in P; auto]. }
      rewrite (below_passes k x d (f 0) ins t P). destruct (place_ok n k x d (f 0) W Hd Ag Nq 0 t O Hx ltac:(lia) No) as (t' & Et & Ot & It). rewrite Et. cbn [obind]. eexists. split; [reflexivity|]. split; auto.
      intros y v. rewrite It. cbn [act]. rewrite Nk. destruct (list_eq_dec Z.eq_dec y k) as [->|N].
      * rewrite put_same. split; [intros [[= ->]|H]; auto; apply L in H; congruence|intros [= ->]; auto].
      * rewrite put_other by auto. rewrite <- L. split; [intros [[= -> ->]|H]; [congruence|auto]|auto].
    + subst x. destruct (change_ok n k f W 0 t O Hx) as [Oc Ic]. eexists. split; [reflexivity|]. split; auto. intros y v. rewrite Ic. cbn [act].
      apply key_leaf in Hx. destruct Hx as (w & Hx). apply L in Hx as Em. rewrite Em. destruct (list_eq_dec Z.eq_dec y k) as [->|N].
      * rewrite put_same. split.
        -- intros [[N _]|[_ (u & Hu & ->)]]; [congruence|]. apply L in Hu. congruence.
        -- intros [= <-]. right. split; auto. exists w. auto.
      * rewrite put_other by auto. rewrite <- L. split; [intros [[_ H]|[-> _]]; [auto|congruence]|auto].
  - eexists. split; [reflexivity|]. split; [constructor; auto|]. intros y v. cbn [act leaves In]. rewrite R. destruct (list_eq_dec Z.eq_dec y k) as [->|N].
    + rewrite put_same. split; [intros [[= ->]|[]]; auto|intros [= ->]; auto].
    + rewrite put_other, R by auto. split; [intros [H|[]]; congruence|discriminate].
Qed.
Lemma rep_del n t m k : rep n t m -> is_key n k -> (m k = None \/ exists x, x <> k /\ m x <> None) ->
  rep n (fst (delete t k)) (act m (Del k)) /\ match m k with None => snd (delete t k) = Missing | Some v => snd (delete t k) = Data v \/ snd (delete t k) = Dangling end.
Proof.
  intros R W Ne. destruct t as [t|]; cbn [rep] in R.
  2: { cbn [delete fst snd rep act]. rewrite R. split; auto. intros x. destruct (list_eq_dec Z.eq_dec x k) as [->|N]; [apply put_same|rewrite put_other; auto]. }
  destruct R as [O L]. assert (Ex : delete_below t k = (None, Missing) -> False) by (intros E; pose proof (delete_ok n k W 0 t O) as D; rewrite E in D; destruct D as [X _]; discriminate X).
  assert (S1 : forall t' d, delete_below t k = (Some t', d) -> delete (Some t) k = (Some t', d)) by (intros t' d E; destruct t; cbn [delete]; [exact E|rewrite E; reflexivity]).
  assert (Nk : forall y w, y <> k -> put m k None y = Some w <-> In (y, w) (leaves t)) by (intros y w N; rewrite put_other by auto; symmetry; apply L).
  pose proof (delete_ok n k W 0 t O) as D. destruct (delete_below t k) as [o d] eqn:E. destruct o as [t'|].
  - rewrite (S1 t' d eq_refl). cbn [fst snd act rep]. destruct d as [v| |].
    1,2: destruct D as (Ot & (w & Hw & Dw) & It); apply L in Hw; rewrite Hw; split; [split; auto|auto]; intros y u; rewrite It; destruct (list_eq_dec Z.eq_dec y k) as [->|N];
      [rewrite put_same; split; [intros [N _]; congruence|discriminate]|rewrite Nk by auto; tauto].
    destruct D as [[= ->] Hk]. assert (Mk : m k = None). { destruct (m k) as [v|] eqn:Em; auto. exfalso. apply Hk. apply L in Em. eapply leaf_key; eauto. } rewrite Mk. split; auto. split; auto. intros y u.
    destruct (list_eq_dec Z.eq_dec y k) as [->|N]; [rewrite put_same; rewrite L, Mk; tauto|rewrite Nk by auto; tauto].
  - assert (Bad : forall w, leaves t = [(k, w)] -> False).
    { intros w Lw. assert (Mw : m k = Some w) by (apply L; rewrite Lw; left; auto). destruct Ne as [Ne|(x & Nx & Hx)]; [congruence|]. destruct (m x) as [u|] eqn:Ex'; [|congruence]. apply L in Ex'. rewrite Lw in Ex'. destruct Ex' as [[= ->]|[]]. congruence. }
    destruct d as [v| |]; [destruct D as (w & Lw & _); destruct (Bad w Lw)|destruct D as (w & Lw & _); destruct (Bad w Lw)|destruct (Ex eq_refl)].
Qed.
Lemma rep_run n : (1 <= n)%nat -> Z.of_nat n <= 8191 -> forall h t m, rep n t m -> Forall (fun o => is_key n (op_key o)) h -> never_emptied m h -> loose m h ->
  exists t', run t h = Ok t' /\ rep n t' (acts m h).
Proof.
  intros Hn Hb. induction h as [|o h IH]; intros t m R F Ne Lo; [exists t; auto|]. inversion F as [|? ? Wo F']; subst. cbn [never_emptied loose] in *. destruct Ne as [Ne Ne']. destruct Lo as [Lo Lo'].
  cbn [run acts]. destruct o as [k f|k]; cbn [apply op_key] in *.
  - destruct (rep_ins n t m k f Hn Hb R Wo Lo) as (t' & -> & R'). cbn [obind]. apply IH; auto.
  - destruct (rep_del n t m k R Wo Ne) as [R' _]. cbn [obind]. apply IH; auto.
Qed.

(** * Order of the walk *)
Lemma before_half n m a b : is_key n a -> is_key n b -> agree m a b -> half a m < half b m -> before a b.
Proof.
  intros [La Fa] [Lb Fb]. revert n m b La Lb Fb. induction a as [|x a IH]; intros n m b La Lb Fb A H; destruct b as [|y b]; cbn [length] in *; subst n; try discriminate.
  - exfalso. unfold half in H. destruct (Nat.div2 m); cbn in H; destruct (Nat.even m); cbn in H; lia.
  - inversion Fa; subst. inversion Fb; subst. cbn [before]. destruct m as [|[|m]].
    + left. cbn in H. rewrite (Z.div_mod x 16), (Z.div_mod y 16) by lia. pose proof (Z.mod_pos_bound x 16). pose proof (Z.mod_pos_bound y 16). lia.
    + left. cbn in H. pose proof (A 0%nat ltac:(lia)) as A0. cbn in A0. rewrite (Z.div_mod x 16), (Z.div_mod y 16) by lia. lia.
    + right. split.
      * pose proof (A 0%nat ltac:(lia)) as A0. pose proof (A 1%nat ltac:(lia)) as A1. cbn in A0, A1. rewrite (Z.div_mod x 16), (Z.div_mod y 16) by lia. lia.
      * apply (IH ltac:(auto) (length a) m); auto. intros i Hi. apply (A (S (S i))). lia.
Qed.
Lemma sorted_app {A} (R : A -> A -> Prop) l1 l2 : StronglySorted R l1 -> StronglySorted R l2 -> (forall x y, In x l1 -> In y l2 -> R x y) -> StronglySorted R (l1 ++ l2).
Proof.
  induction 1 as [|x l1 S1 IH F]; intros S2 H; cbn [app]; auto. constructor; [apply IH; auto; intros; apply H; auto; right; auto|].
  rewrite Forall_forall in *. intros y Hy. apply in_app_or in Hy. destruct Hy; auto. apply H; [left|]; auto.
Qed.
Lemma walk_sorted n lo t : ok n lo t -> StronglySorted before (keys t).
Proof.
  induction 1 as [lo k v W|lo s kids A B C D E IH F G]; [repeat constructor|]. assert (K : forall i c y, nth_error kids i = Some (Some c) -> In y (keys c) -> is_key n y) by (intros i c y Q Hy; eapply ok_keys; eauto).
  assert (G' : forall i j c c' y y', nth_error kids i = Some (Some c) -> nth_error kids j = Some (Some c') -> In y (keys c) -> In y' (keys c') -> agree s y y') by (intros; apply G; apply in_keys; eauto).
  clear G C D E. unfold keys. cbn [leaves].
  assert (Q : forall l off, (forall i o, nth_error l i = Some o -> nth_error kids (off + i) = Some o) -> StronglySorted before (map fst (flat_map (fun o => match o with Some c => leaves c | None => [] end) l)) /\
     forall y, In y (map fst (flat_map (fun o => match o with Some c => leaves c | None => [] end) l)) -> exists i c, (off <= i)%nat /\ nth_error kids i = Some (Some c) /\ In y (keys c)).
  { induction l as [|o l IHl]; intros off Hl; cbn [flat_map map]; [split; [constructor|intros y []]|]. destruct (IHl (S off)) as [S' I']; [intros i o' Q'; replace (S off + i)%nat with (off + S i)%nat by lia; apply Hl; auto|]. clear IHl.
    pose proof (Hl 0%nat o eq_refl) as Ho. rewrite Nat.add_0_r in Ho. rewrite map_app. destruct o as [c|].
    - split.
      + apply sorted_app; auto; [apply (IH off c Ho)|]. intros x y Hx Hy. destruct (I' y Hy) as (i & c' & Li & Qi & Hc). apply (before_half n s x y (K off c x Ho Hx) (K i c' y Qi Hc) (G' off i c c' x y Ho Qi Hx Hc)).
        rewrite (F off c x Ho Hx), (F i c' y Qi Hc). lia.
      + intros y Hy. apply in_app_or in Hy. destruct Hy as [Hy|Hy]; [exists off, c; auto|]. destruct (I' y Hy) as (i & c' & Li & Qi & Hc). exists i, c'. split; [lia|auto].
    - cbn [map app]. split; auto. intros y Hy. destruct (I' y Hy) as (i & c' & Li & Qi & Hc). exists i, c'. split; [lia|auto]. }
  apply (Q kids 0%nat). intros i o Q'. exact Q'.
Qed.
Lemma before_irrefl a : ~ before a a.
Proof. induction a; cbn; [tauto|]. intros [H|[_ H]]; [lia|auto]. Qed.
Lemma sorted_nodup (l : list (list Z)) : StronglySorted before l -> NoDup l.
Proof. induction 1 as [|x l S' IH F]; constructor; auto. intros Hx. rewrite Forall_forall in F. apply (before_irrefl x). auto. Qed.

(** * Union *)
Lemma insert_all_run t l g : insert_all t l g = run t (map (fun kv => Ins (fst kv) (fun x => g x (snd kv))) l).
Proof. revert t. induction l as [|[k v] l IH]; intros t; cbn [insert_all run map apply fst snd]; auto. destruct (insert t k (fun x => g x v)) as [t'| |]; cbn [obind]; auto. Qed.
Lemma acts_inserts (g : Z -> Z -> Z) (l : list (list Z * Z)) : NoDup (map fst l) -> forall m k, acts m (map (fun kv => Ins (fst kv) (fun x => g x (snd kv))) l) k =
  match List.find (fun kv => key_eq (fst kv) k) l with Some kv => Some (g (match m k with Some v => v | None => 0 end) (snd kv)) | None => m k end.
Proof.
  induction l as [|[k' v] l IH]; intros N m k; cbn [map acts List.find fst snd]; auto. inversion N as [|? ? N1 N2]; subst. rewrite IH by auto. cbn [act]. destruct (key_eq k' k) eqn:E.
  - apply key_eq_iff in E. subst k'. replace (List.find (fun kv => key_eq (fst kv) k) l) with (@None (list Z * Z)); [apply put_same|]. symmetry.
    destruct (List.find (fun kv => key_eq (fst kv) k) l) as [[k2 w]|] eqn:Q; auto. apply find_some in Q. destruct Q as [Q1 Q2]. cbn [fst] in Q2. apply key_eq_iff in Q2. subst k2. exfalso. apply N1. apply in_map_iff. exists (k, w). auto.
  - assert (k <> k') by (intros ->; rewrite (proj2 (key_eq_iff k' k') eq_refl) in E; discriminate). rewrite put_other by auto. reflexivity.
Qed.

(** * Tries that were only inserted into: every branch has two slots in use *)
Inductive full : trie -> Prop :=
| full_leaf k v : full (Leaf k v)
| full_branch s kids i j c c' : i <> j -> nth_error kids i = Some (Some c) -> nth_error kids j = Some (Some c') -> (forall i c, nth_error kids i = Some (Some c) -> full c) -> full (Branch s kids).
Lemma full_set s kids i c : full (Branch s kids) -> full c -> (exists c0, nth_error kids i = Some (Some c0)) \/ (i < length kids)%nat -> full (Branch s (set_kid kids i (Some c))).
Proof.
  intros H Fc Hi. inversion H as [|? ? a b ca cb Nab Qa Qb All]; subst. assert (Li : (i < length kids)%nat) by (destruct Hi as [(c0 & E)|]; auto; apply nth_error_Some; congruence).
  assert (P : forall j cj, nth_error kids j = Some (Some cj) -> exists cj', nth_error (set_kid kids i (Some c)) j = Some (Some cj')). { intros j cj Q. destruct (Nat.eq_dec j i) as [->|N]; [rewrite set_kid_same by auto; eauto|rewrite set_kid_other by auto; eauto]. }
  destruct (P a ca Qa) as (ca' & Qa'). destruct (P b cb Qb) as (cb' & Qb'). apply (full_branch s _ a b ca' cb'); auto.
  intros j cj Q. destruct (Nat.eq_dec j i) as [->|N]; [rewrite set_kid_same in Q by auto; injection Q as <-; auto|rewrite set_kid_other in Q by auto; eauto].
Qed.
Lemma full_new n t k x m v : full t -> is_key n k -> is_key n x -> half k m <> half x m -> full (new_branch t k x (Z.of_nat m) v).
Proof.
  intros H W Wx Nq. pose proof (half_range n k m W) as Rk. pose proof (half_range n x m Wx) as Rx. unfold new_branch. rewrite (nibble_half n k m W), (nibble_half n x m Wx).
  assert (Nab : Z.to_nat (half x m) <> Z.to_nat (half k m)) by lia. assert (L0 : length no_kids = 16%nat) by reflexivity.
  apply (full_branch _ _ (Z.to_nat (half x m)) (Z.to_nat (half k m)) t (Leaf k v)); auto.
  - rewrite set_kid_other by auto. apply set_kid_same. rewrite L0. lia.
  - apply set_kid_same. rewrite set_kid_len, L0. lia.
  - intros j c. destruct (Nat.eq_dec j (Z.to_nat (half k m))) as [->|N]; [rewrite set_kid_same by (rewrite set_kid_len, L0; lia); intros [= <-]; constructor|]. rewrite set_kid_other by auto.
    destruct (Nat.eq_dec j (Z.to_nat (half x m))) as [->|N']; [rewrite set_kid_same by (rewrite L0; lia); intros [= <-]; auto|]. rewrite set_kid_other by auto. intros Q. apply nth_error_In in Q. unfold no_kids in Q. apply repeat_spec in Q. discriminate.
Qed.
Lemma full_place n k x m v : is_key n k -> is_key n x -> half k m <> half x m -> forall lo t, ok n lo t -> full t -> forall t', place t k x (Z.of_nat m) v = Ok t' -> full t'.
Proof.
  intros W Wx Nq lo t H. induction H as [lo k' v' W'|lo s kids A B C D E IH F G]; intros Fu t'; cbn [place]; [intros [= <-]; eapply full_new; eauto|]. rewrite !at_nibble_eq, (nibble_half n k s W).
  destruct (Z.of_nat m =? Z.of_nat s).
  - destruct (nth_error kids (Z.to_nat (half k s))) as [[c|]|]; [discriminate| |]; intros [= <-]; (apply full_set; [auto|constructor|right; apply (half_in n); auto]).
  - destruct (Z.of_nat m <? Z.of_nat s); [intros [= <-]; eapply full_new; eauto|]. destruct (nth_error kids (Z.to_nat (half k s))) as [[c|]|] eqn:Q; try discriminate.
    destruct (place c k x (Z.of_nat m) v) as [c'| |] eqn:P; try discriminate. cbn [obind]. intros [= <-]. apply full_set; auto; [|left; eauto]. eapply IH; eauto. inversion Fu; subst; eauto.
Qed.
Lemma full_change n k f : is_key n k -> forall lo t, ok n lo t -> In k (keys t) -> full t -> full (change t k true f).
Proof.
  intros W lo t H. induction H as [lo k' v' W'|lo s kids A B C D E IH F G]; intros Hk Fu; cbn [change]; [constructor|]. apply in_keys in Hk as Hk'. destruct Hk' as (i & c & Q & Hc). pose proof (F i c k Q Hc) as Hi. cbn [andb].
  rewrite !at_nibble_eq, (nibble_half n k s W), Hi, Nat2Z.id, Q. apply full_set; auto; [|left; eauto]. eapply IH; eauto. inversion Fu; subst; eauto.
Qed.
Lemma full_ins n t m k f t' : (1 <= n)%nat -> Z.of_nat n <= 8191 -> rep n (Some t) m -> is_key n k -> (m k = None -> forall x, m x <> None -> loosely k x) -> full t -> insert (Some t) k f = Ok (Some t') -> full t'.
Proof.
  intros Hn Hb [O L] W Lo Fu. cbn [insert]. destruct (similar_ok n k W 0 t O true 0 0) as (x & ins & Es & Hx & M). rewrite Es. cbn [obind].
  assert (Wx : is_key n x) by (eapply ok_keys; eauto). pose proof (first_diff_spec n k x W Wx 0 ltac:(lia) ltac:(lia) eq_refl) as D. destruct (first_diff k x 0) as [bits|].
  - destruct D as (d & Hd & Ed & Ag & Nq). rewrite Ed. change (0 / 4 + Z.of_nat d) with (Z.of_nat d).
    assert (No : forall y, In y (keys t) -> ~ agree (S d) k y) by (intros y Hy A; apply Nq; apply (M eq_refl y (S d) Hy A); lia).
    assert (Nk : m k = None). { destruct (m k) as [v|] eqn:E; auto. exfalso. apply L in E. apply (No k (leaf_key _ _ _ E)). apply agree_refl. }
    assert (Lx : loosely k x). { apply Lo; auto. apply key_leaf in Hx. destruct Hx as (v & Hx). apply L in Hx. congruence. }
    assert (P : passes k d ins t). { destruct (similar_passes n k d W 0 t O 0 0 x ins Es Ag Nq Lx) as [->|(_ & P & _)]; [constructor|rewrite Nat.sub_0_r in P; auto]. }
    rewrite (below_passes k x d (f 0) ins t P). destruct (place t k x (Z.of_nat d) (f 0)) as [t2| |] eqn:Pl; try discriminate. cbn [obind]. intros [= <-]. eapply (full_place n k x d); eauto.
  - subst x. intros [= <-]. eapply full_change; eauto.
Qed.
Lemma full_run n : (1 <= n)%nat -> Z.of_nat n <= 8191 -> forall l t m t', rep n t m -> Forall (fun kf => is_key n (fst kf)) l -> loose m (map (fun kf => Ins (fst kf) (snd kf)) l) ->
  (forall t0, t = Some t0 -> full t0) -> run t (map (fun kf => Ins (fst kf) (snd kf)) l) = Ok t' -> forall t1, t' = Some t1 -> full t1.
Proof.
  intros Hn Hb. induction l as [|[k f] l IH]; intros t m t' R F Lo Fu; cbn [map run apply fst snd loose] in *; [intros [= <-]; auto|]. inversion F as [|? ? Wk F']; subst. cbn [fst] in Wk. destruct Lo as [Lo Lo'].
  destruct (rep_ins n t m k f Hn Hb R Wk Lo) as (t2 & E & R'). rewrite E. cbn [obind]. apply (IH t2 _ t' R' F' Lo'). intros t0 ->. destruct t as [t|]; [eapply (full_ins n t m k f); eauto|]. cbn [insert] in E. injection E as <-. constructor.
Qed.
Lemma full_two n lo t : ok n lo t -> full t -> forall s kids, t = Branch s kids -> forall kv, leaves t <> [kv].
Proof.
  intros O Fu s kids -> kv E. inversion Fu as [|? ? i j c c' N Qi Qj _]; subst. inversion O as [|? s' ? A B C D OK F G]; subst.
  destruct (ok_some n (S s') c (OK _ _ Qi)) as ([y w] & H). destruct (ok_some n (S s') c' (OK _ _ Qj)) as ([y' w'] & H').
  assert (In (y, w) [kv]) by (rewrite <- E; apply in_leaves; eauto). assert (In (y', w') [kv]) by (rewrite <- E; apply in_leaves; eauto). destruct H0 as [->|[]]. destruct H1 as [[= -> ->]|[]].
  pose proof (F i c y' Qi (leaf_key _ _ _ H)). pose proof (F j c' y' Qj (leaf_key _ _ _ H')). lia.
Qed.
Lemma full_delete n k v : is_key n k -> forall lo t, ok n lo t -> full t -> In (k, v) (leaves t) -> snd (delete_below t k) = Data v /\ (fst (delete_below t k) = None -> exists k' v', t = Leaf k' v').
Proof.
  intros W lo t H. induction H as [lo k' v' W'|lo s kids A B C D E IH F G]; intros Fu Hin; cbn [delete_below].
  - destruct Hin as [[= -> ->]|[]]. rewrite (proj2 (same_bytes_iff n k k W W) eq_refl). cbn. eauto.
  - assert (O : ok n lo (Branch (Z.of_nat s) kids)) by (constructor; auto). rewrite at_nibble_eq, (nibble_half n k s W). apply in_leaves in Hin as Hin'. destruct Hin' as (i & c & Q & Hc). pose proof (F i c k Q (leaf_key _ _ _ Hc)) as Hi. rewrite Hi, Nat2Z.id, Q.
    assert (Fc : full c) by (inversion Fu; subst; eauto). destruct (IH i c Q Fc Hc) as [Ed En]. destruct (delete_below c k) as [o d]. cbn [fst snd] in *. subst d.
    assert (Li : (i < length kids)%nat) by (apply nth_error_Some; congruence). assert (Me : mask_empty (set_kid kids i o) = false).
    { inversion Fu as [|? ? a b ca cb Nab Qa Qb All]; subst. destruct (Nat.eq_dec a i) as [->|Na]; [apply (mask_some _ b cb); rewrite set_kid_other by auto; auto|apply (mask_some _ a ca); rewrite set_kid_other by auto; auto]. }
    rewrite Me. cbn [fst snd]. split; [auto|discriminate].
Qed.
