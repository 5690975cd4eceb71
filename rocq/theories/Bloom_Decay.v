(** Proofs for the decaying and the stable filter. *)
From Verif Require Import Base Dhkey_Model Bloom_Model Bloom_Spec Bloom_Std.

(** value of a cell of [d] bits that was shifted by [o] since it was last written *)
Definition cell_ok (dd : Z) (o : option Z) (v : Z) : Prop :=
  0 <= v /\ match o with None => v = 0 | Some k => 0 <= k /\ (if k <? dd then 2 ^ (dd - 1 - k) <= v < 2 ^ (dd - k) else v = 0) end.
Record DecInv (dd : Z) (s : decay_state) (b : bloom) : Prop := mkDec {
  dc_size : size b = sz s; dc_p : p b = shift s; dc_d : d b = dd; dc_num : num_blocks b = 1; dc_len : len (bits b) = sz s;
  dc_cell : forall pos, 0 <= pos < sz s -> cell_ok dd (since s pos) (at_ (bits b) pos);
  dc_free : 0 <= free_items b < 65536 }.
Definition width_ok (dd : Z) : Prop := dd = 8 \/ dd = 16.
Lemma width_true dd : width_ok dd -> (dd =? 8) || (dd =? 16) = true. Proof. intros [->| ->]; reflexivity. Qed.

Lemma lor_top dd v : width_ok dd -> 0 <= v < 2 ^ dd -> 2 ^ (dd - 1) <= Z.lor v (Z.shiftl 1 (dd - 1)) < 2 ^ dd.
Proof.
  intros W H. assert (0 < dd) by (destruct W; lia). rewrite Z.shiftl_1_l. split.
  - assert (A : 0 < 2 ^ (dd - 1)) by (apply Z.pow_pos_nonneg; lia).
    assert (P : 0 < Z.lor v (2 ^ (dd - 1))).
    { assert (0 <= Z.lor v (2 ^ (dd - 1))) by (apply Z.lor_nonneg; lia).
      assert (Z.lor v (2 ^ (dd - 1)) <> 0) by (intros E; apply Z.lor_eq_0_iff in E; lia). lia. }
    destruct (Z.log2_spec _ P) as [L _]. rewrite Z.log2_lor, Z.log2_pow2 in L by lia.
    apply Z.le_trans with (2 ^ Z.max (Z.log2 v) (dd - 1)); auto. apply Z.pow_le_mono_r; lia.
  - destruct (Z.eq_dec v 0) as [->|N]; [rewrite Z.lor_0_l; apply Z.pow_lt_mono_r; lia|].
    apply Z.log2_lt_pow2; [|rewrite Z.log2_lor, Z.log2_pow2 by (try apply Z.pow_nonneg; lia)].
    + assert (0 <= Z.lor v (2 ^ (dd - 1))) by (apply Z.lor_nonneg; split; [lia|apply Z.pow_nonneg; lia]).
      assert (Z.lor v (2 ^ (dd - 1)) <> 0) by (intros E; apply Z.lor_eq_0_iff in E; lia). lia.
    + assert (Z.log2 v < dd) by (apply Z.log2_lt_pow2; lia). lia.
Qed.
Lemma cell_bound dd o v : width_ok dd -> cell_ok dd o v -> 0 <= v < 2 ^ dd.
Proof.
  intros W [N H]. split; auto. assert (0 < 2 ^ dd) by (apply Z.pow_pos_nonneg; destruct W; lia). destruct o as [k|]; [|lia]. destruct H as [K H]. destruct (Z.ltb_spec k dd); [|lia].
  assert (2 ^ (dd - k) <= 2 ^ dd) by (apply Z.pow_le_mono_r; lia). lia.
Qed.
Section Dec.
  Variable dd : Z.
  Hypothesis W : width_ok dd.
  Lemma dec_set n w m : 0 < n -> len m = n -> (forall pos, 0 <= pos < n -> 0 <= at_ m pos < 2 ^ dd) -> exists m', decaying_set n dd w m = Ok m' /\ len m' = n /\
    (forall pos, 0 <= pos < n -> 0 <= at_ m' pos < 2 ^ dd) /\
    (forall pos, 0 <= pos < n -> if w mod n =? pos then 2 ^ (dd - 1) <= at_ m' pos < 2 ^ dd else at_ m' pos = at_ m pos).
  Proof.
    intros Hn L R. unfold decaying_set, modulo. replace (n =? 0) with false by lia. cbn [obind]. rewrite width_true by auto. unfold modify, rd. pose proof (Z.mod_pos_bound w n Hn).
    replace ((0 <=? w mod n) && (w mod n <? len m)) with true by lia. cbn [obind]. eexists. split; [reflexivity|]. split; [exact L|].
    split; intros pos Hp; unfold put; cbn [at_].
    - destruct (Z.eqb_spec pos (w mod n)) as [->|]; [pose proof (lor_top dd (at_ m (w mod n)) W ltac:(apply R; lia)); assert (0 <= 2 ^ (dd - 1)) by (apply Z.pow_nonneg; lia); lia|apply R; auto].
    - rewrite (Z.eqb_sym (w mod n)). destruct (Z.eqb_spec pos (w mod n)) as [->|]; [|reflexivity]. apply lor_top; auto.
  Qed.
  Lemma dec_each n ws : 0 < n -> forall m, len m = n -> (forall pos, 0 <= pos < n -> 0 <= at_ m pos < 2 ^ dd) -> exists m', each ws (decaying_set n dd) m = Ok m' /\ len m' = n /\
    (forall pos, 0 <= pos < n -> 0 <= at_ m' pos < 2 ^ dd) /\
    (forall pos, 0 <= pos < n -> if existsb (fun v => v mod n =? pos) ws then 2 ^ (dd - 1) <= at_ m' pos < 2 ^ dd else at_ m' pos = at_ m pos).
  Proof.
    intros Hn. induction ws as [|w ws IH]; intros m L R; cbn [each existsb]; [exists m; auto|].
    destruct (dec_set n w m Hn L R) as (m1 & E1 & L1 & R1 & C1). rewrite E1. cbn [obind]. destruct (IH m1 L1 R1) as (m2 & E2 & L2 & R2 & C2).
    exists m2. split; auto. split; auto. split; auto. intros pos Hp. specialize (C1 pos Hp). specialize (C2 pos Hp).
    destruct (w mod n =? pos); cbn [orb]; destruct (existsb _ ws); auto; try (rewrite C2; auto).
  Qed.
  Lemma dec_create n pp : 0 < n -> n <= 65535 -> 1 <= pp -> DecInv dd (mkDecay n pp (fun _ => None)) (decaying_create n dd pp).
  Proof. intros. constructor; cbn; auto; [intros; split; lia|]. pose proof (u16_range (n * dd / 16)). lia. Qed.
  Lemma dec_add s b id : 0 < sz s -> DecInv dd s b -> free_items b <> 0 -> exists b', decaying_add b id = Ok b' /\ DecInv dd (dstep s (DAdd id)) b' /\ free_items b' = free_items b - 1.
  Proof.
    intros Hn [Hs Hp Hd Hnum Hl Hc Hf] F. unfold decaying_add. replace (free_items b =? 0) with false by lia. rewrite Hs, Hd.
    destruct (dec_each (sz s) id Hn (bits b) Hl) as (m & E & L & R & C); [intros; eapply cell_bound; eauto|]. rewrite E. cbn [obind].
    eexists. split; [reflexivity|]. assert (FR : u16 (free_items b - 1) = free_items b - 1) by (apply u16_id; lia). split; [|exact FR]. constructor; cbn; auto; [|pose proof (u16_range (free_items b - 1)); lia].
    intros pos Hpos. specialize (C pos Hpos). specialize (R pos Hpos). destruct (existsb _ id); [|rewrite C; auto]. split; [lia|]. split; [lia|].
    replace (0 <? dd) with true by (destruct W; lia). rewrite !Z.sub_0_r. exact C.
  Qed.
  Lemma dec_check s b id : 0 < sz s -> DecInv dd s b -> decaying_check b id = Ok (remembered dd s id).
  Proof.
    intros Hn [Hs Hp Hd Hnum Hl Hc Hf]. unfold decaying_check. rewrite Hs, Hd. induction id as [|w id IH]; cbn [every]; [reflexivity|].
    unfold decaying_test at 1, modulo. replace (sz s =? 0) with false by lia. cbn [obind]. rewrite width_true by auto. unfold rd. pose proof (Z.mod_pos_bound w (sz s) Hn).
    replace ((0 <=? w mod sz s) && (w mod sz s <? len (bits b))) with true by lia. cbn [obind]. unfold remembered. cbn [forallb]. fold (remembered dd s id).
    destruct (Hc (w mod sz s) ltac:(lia)) as [N C]. destruct (since s (w mod sz s)) as [k|].
    - destruct C as [K C]. destruct (Z.ltb_spec k dd) as [Q|Q].
      + assert (0 < 2 ^ (dd - 1 - k)) by (apply Z.pow_pos_nonneg; lia). replace (at_ (bits b) (w mod sz s) =? 0) with false by lia. cbn [negb andb]. exact IH.
      + rewrite C. reflexivity.
    - rewrite C. reflexivity.
  Qed.
  Lemma shiftr_cell k pp v : 0 <= k -> 1 <= pp -> cell_ok dd (Some k) v -> cell_ok dd (Some (pp + k)) (if 0 <? v then Z.shiftr v pp else v).
  Proof.
    intros Hk Hp [N [_ C]]. assert (E : (if 0 <? v then Z.shiftr v pp else v) = v / 2 ^ pp).
    { destruct (Z.ltb_spec 0 v); [apply Z.shiftr_div_pow2; lia|]. assert (v = 0) by lia. subst. rewrite Z.div_0_l; auto. apply Z.pow_nonzero; lia. }
    rewrite E. assert (P : 0 < 2 ^ pp) by (apply Z.pow_pos_nonneg; lia). split; [apply Z.div_pos; auto|]. split; [lia|].
    destruct (Z.ltb_spec k dd) as [Q|Q].
    - destruct (Z.ltb_spec (pp + k) dd) as [Q2|Q2].
      + split.
        * apply Z.div_le_lower_bound; auto. rewrite <- Z.pow_add_r by lia. replace (pp + (dd - 1 - (pp + k))) with (dd - 1 - k) by lia. lia.
        * apply Z.div_lt_upper_bound; auto. rewrite <- Z.pow_add_r by lia. replace (pp + (dd - (pp + k))) with (dd - k) by lia. lia.
      + apply Z.div_small. split; [lia|]. apply Z.lt_le_trans with (2 ^ (dd - k)); [lia|]. apply Z.pow_le_mono_r; lia.
    - replace (pp + k <? dd) with false by lia. rewrite C. apply Z.div_0_l. lia.
  Qed.
  Lemma dec_decay s b : 0 < sz s <= 65535 -> 1 <= shift s -> DecInv dd s b -> exists b', decaying_decay b = Ok b' /\ DecInv dd (dstep s DDecay) b'.
  Proof.
    intros Hn Hsh [Hs Hp Hd Hnum Hl Hc Hf]. unfold decaying_decay, loop16. rewrite Hs, Hd, Hp, Hl, width_true by auto.
    replace (65535 <? sz s) with false by lia. replace (sz s <? sz s) with false by lia. cbn [obind]. eexists. split; [reflexivity|].
    constructor; cbn [set_free set_bits size p d bits free_items len num_blocks dstep sz shift since]; auto; [|match goal with |- _ <= u16 ?x < _ => pose proof (u16_range x); lia end].
    intros pos Hpos. cbn [at_]. replace ((0 <=? pos) && (pos <? sz s)) with true by lia. specialize (Hc pos Hpos). destruct (since s pos) as [k|]; cbn [option_map].
    - apply shiftr_cell; auto. destruct Hc as [_ [K _]]. exact K.
    - destruct Hc as [N C]. rewrite C. cbn. split; [lia|reflexivity].
  Qed.
  Lemma dec_resize s b n : 0 < n <= 65535 -> n mod 8 = 0 -> DecInv dd s b -> exists b', decaying_clear (set_size b n) = Ok b' /\ DecInv dd (dstep s (DResize n)) b'.
  Proof.
    intros Hn H8 [Hs Hp Hd Hnum Hl Hc Hf]. unfold decaying_clear. cbn [set_size size d p num_blocks]. rewrite Hd, Hnum.
    pose proof (Z.div_mod n 8 ltac:(lia)) as E. rewrite H8, Z.add_0_r in E.
    assert (E2 : 1 * n * dd / 8 = n / 8 * dd). { rewrite E at 1. replace (1 * (8 * (n / 8)) * dd) with (n / 8 * dd * 8) by ring. apply Z.div_mul. lia. }
    rewrite E2. replace (n / 8 * dd <? n / 8 * dd) with false by lia. eexists. split; [reflexivity|].
    constructor; cbn [set_free set_bits set_size size p d bits free_items len num_blocks dstep sz shift since calloc]; auto.
    - destruct W as [->| ->]; [change (8 / 8) with 1; rewrite Z.div_1_r; lia|change (16 / 8) with 2]. replace (n / 8 * 16) with (n * 2) by lia. apply Z.div_mul. lia.
    - intros pos Hpos. split; cbn; lia.
    - match goal with |- _ <= u16 ?x < _ => pose proof (u16_range x); lia end.
  Qed.
  Definition dvalid (s : decay_state) : Prop := 0 < sz s <= 65535 /\ 1 <= shift s.
  Lemma dvalid_step s o : dvalid s -> dop_ok dd o -> dvalid (dstep s o).
  Proof. intros [A B] H. destruct o; cbn in *; split; cbn; try lia. Qed.
  (** every history either stops because the filter is full, or keeps the filter in step with the specification *)
  Lemma dec_history l : forall s b, dvalid s -> DecInv dd s b -> Forall (dop_ok dd) l ->
    dapply_all b l = Abort \/ exists b', dapply_all b l = Ok b' /\ DecInv dd (fold_left dstep l s) b' /\ dvalid (fold_left dstep l s).
  Proof.
    induction l as [|o l IH]; intros s b V I F; cbn [dapply_all fold_left]; [right; exists b; auto|]. inversion F as [|? ? Fo Fl]; subst.
    pose proof (dvalid_step s o V Fo) as V'. destruct V as [Vn Vs]. destruct o as [id| |pp|n]; cbn [dapply].
    - destruct (Z.eq_dec (free_items b) 0) as [Z0|N]; [left; unfold decaying_add; rewrite Z0; reflexivity|].
      destruct (dec_add s b id ltac:(lia) I N) as (b' & E & I' & _). rewrite E. cbn [obind]. apply IH; auto.
    - destruct (dec_decay s b Vn Vs I) as (b' & E & I'). rewrite E. cbn [obind]. apply IH; auto.
    - cbn [obind]. apply IH; auto. destruct I. constructor; auto.
    - destruct Fo as [F1 F2]. destruct (dec_resize s b n F1 F2 I) as (b' & E & I'). rewrite E. cbn [obind]. apply IH; auto.
  Qed.
  Lemma dec_full ids : forall s b, 0 < sz s -> DecInv dd s b -> free_items b < Z.of_nat (length ids) -> add_all decaying_add b ids = Abort.
  Proof.
    induction ids as [|id ids IH]; intros s b Hn I L; cbn [add_all length] in *; [destruct I; lia|].
    destruct (Z.eq_dec (free_items b) 0) as [Z0|N]; [unfold decaying_add; rewrite Z0; reflexivity|].
    destruct (dec_add s b id Hn I N) as (b' & E & I' & Fr). rewrite E. cbn [obind]. eapply IH; [|exact I'|]; [exact Hn|lia].
  Qed.
End Dec.

(** * Stable filter *)
Lemma masked n j w : n = 2 ^ j -> 0 <= j -> Z.land w (n - 1) = w mod n.
Proof. intros -> Hj. rewrite Z.sub_1_r, <- Z.ones_equiv. apply Z.land_ones. exact Hj. Qed.
Definition stable_ok (j : Z) (b : bloom) : Prop := size b = 2 ^ j /\ 1 <= j <= 28 /\ d b = 8 /\ len (bits b) = 2 ^ j.
Lemma pow_bound j : 1 <= j <= 28 -> 0 < 2 ^ j <= 268435456.
Proof. intros H. split; [apply Z.pow_pos_nonneg; lia|]. change 268435456 with (2 ^ 28). apply Z.pow_le_mono_r; lia. Qed.
Lemma stable_cell_ok j b w : stable_ok j b -> stable_cell b w = w mod 2 ^ j /\ 0 <= w mod 2 ^ j < 2 ^ j.
Proof.
  intros (Hs & Hj & Hd & Hl). pose proof (pow_bound j Hj) as P. assert (R : 0 <= w mod 2 ^ j < 2 ^ j) by (apply Z.mod_pos_bound; lia). split; auto.
  unfold stable_cell. rewrite Hs, Hd, (masked _ j) by (auto; lia). rewrite u32_id by lia. rewrite Z.shiftr_div_pow2 by lia. change (2 ^ 3) with 8. apply Z.div_mul. lia.
Qed.
Lemma rd_ok m a : 0 <= a < len m -> rd m a = Ok (at_ m a).
Proof. intros H. unfold rd. replace ((0 <=? a) && (a <? len m)) with true by lia. reflexivity. Qed.
Lemma prune8_ok j b r : stable_ok j b -> forall qs m k, len m = 2 ^ j -> exists m' k', prune8 b r qs m k = Ok (m', k') /\ len m' = 2 ^ j.
Proof.
  intros S. induction qs as [|q qs IH]; intros m k L; cbn [prune8]; [eauto|]. destruct (stable_cell_ok j b (u32 (r + q)) S) as [E R].
  rewrite rd_ok by (rewrite L, E; exact R). cbn [obind]. apply IH. exact L.
Qed.
Lemma prune_ok j b : stable_ok j b -> forall n rs m k, len m = 2 ^ j -> exists m' k' rs', prune b n rs m k = Ok (m', k', rs') /\ len m' = 2 ^ j.
Proof.
  intros S. induction n as [|n IH]; intros rs m k L; cbn [prune]; [eauto|]. destruct rs as [|r rs]; [eauto|].
  destruct (prune8_ok j b r S [0; 1; 2; 3; 4; 5; 6; 7] m k L) as (m1 & k1 & E & L1). rewrite E. cbn [obind]. apply IH. exact L1.
Qed.
Lemma stable_each j b : stable_ok j b -> forall ws m, len m = 2 ^ j -> exists m', each ws (fun w m => modify m (stable_cell b w) (fun _ => 15)) m = Ok m' /\ len m' = 2 ^ j /\
  (forall pos, at_ m' pos = if existsb (fun v => v mod 2 ^ j =? pos) ws then 15 else at_ m pos).
Proof.
  intros S. induction ws as [|w ws IH]; intros m L; cbn [each existsb]; [exists m; auto|]. destruct (stable_cell_ok j b w S) as [E R].
  unfold modify at 1. rewrite rd_ok by (rewrite L, E; exact R). cbn [obind]. rewrite E. destruct (IH (put m (w mod 2 ^ j) 15) L) as (m' & E' & L' & C). exists m'. split; auto. split; auto.
  intros pos. rewrite C. cbn [put at_]. rewrite (Z.eqb_sym pos). destruct (existsb _ ws), (w mod 2 ^ j =? pos); reflexivity.
Qed.
Lemma stable_add_ok j b id : stable_ok j b -> exists b', stable_add b id = Ok b' /\ stable_ok j b' /\ (forall w, In w id -> at_ (bits b') (w mod 2 ^ j) = 15).
Proof.
  intros S. unfold stable_add. destruct (prune_ok j b S (Z.to_nat (p b)) (rnd b) (bits b) 0) as (m & k & rs & E & L); [destruct S as (_ & _ & _ & L); exact L|].
  rewrite E. cbn [obind]. destruct (stable_each j b S id m L) as (m' & E' & L' & C). rewrite E'. cbn [obind]. eexists. split; [reflexivity|].
  destruct S as (Hs & Hj & Hd & Hl). split; [split; [|split; [|split]]; cbn; auto; lia|]. intros w Hw. cbn. rewrite C.
  replace (existsb _ id) with true; auto. symmetry. apply existsb_exists. exists w. split; auto. apply Z.eqb_refl.
Qed.
Lemma stable_check_ok j b id : stable_ok j b -> exists r b', stable_check b id = Ok (r, b') /\ stable_ok j b' /\ (forall w, In w id -> at_ (bits b') (w mod 2 ^ j) = 15) /\
  r = forallb (fun w => negb (at_ (bits b) (w mod 2 ^ j) =? 0)) id.
Proof.
  intros S. unfold stable_check.
  assert (E : every id (stable_test b) = Ok (forallb (fun w => negb (at_ (bits b) (w mod 2 ^ j) =? 0)) id)).
  { induction id as [|w id IH]; cbn [every forallb]; [reflexivity|]. unfold stable_test at 1. destruct (stable_cell_ok j b w S) as [E R].
    rewrite rd_ok by (rewrite E; destruct S as (_ & _ & _ & ->); exact R). cbn [obind]. rewrite E. destruct (negb _); auto. }
  rewrite E. cbn [obind]. destruct (stable_add_ok j b id S) as (b' & E' & S' & C). rewrite E'. cbn [obind]. eauto 10.
Qed.
