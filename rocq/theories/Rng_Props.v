(** C24: bounded random numbers. *)
From Verif Require Import Base Rng_Model Rng_Spec.

(** ** The congruential step visits every state *)

Section Period.
  Variable c : Z.
  Hypothesis c_odd : Z.odd c = true.

  Definition f (x : Z) : Z := x * MULT + c.

  Definition fiter (n : Z) (x : Z) : Z := Nat.iter (Z.to_nat n) f x.

  Lemma fiter_0 x : fiter 0 x = x.
  Proof. reflexivity. Qed.
  Lemma fiter_add n m x : 0 <= n -> 0 <= m -> fiter (n + m) x = fiter n (fiter m x).
  Proof.
    intros. unfold fiter. rewrite Z2Nat.inj_add by lia.
    induction (Z.to_nat n) as [|k IH]; auto. cbn [Nat.add Nat.iter nat_rect]. f_equal. exact IH.
  Qed.
  Lemma fiter_1 x : fiter 1 x = f x.
  Proof. reflexivity. Qed.

  (** after 2^k steps the map is x -> A x + C with A = 1 mod 2^(k+2) and C an odd multiple of 2^k *)
  Lemma doubling k : 0 <= k -> exists A C a0 c0,
    (forall x, fiter (2 ^ k) x = A * x + C) /\ A = 1 + a0 * 2 ^ (k + 2) /\ C = (2 * c0 + 1) * 2 ^ k.
  Proof.
    revert k. apply natlike_ind.
    - exists MULT, c, 1591034055961698251, (c / 2). split; [intros x; rewrite Z.pow_0_r, fiter_1; unfold f; ring|].
      split; [reflexivity|]. rewrite Z.pow_0_r, Z.mul_1_r. pose proof (Zdiv.Zmod_odd c) as H. rewrite c_odd in H.
      pose proof (Z.div_mod c 2 ltac:(lia)). lia.
    - intros k Hk (A & C & a0 & c0 & E & EA & EC).
      assert (P : 2 ^ (Z.succ k + 2) = 2 * 2 ^ (k + 2)) by (rewrite <- Z.pow_succ_r by lia; f_equal; lia).
      assert (Q : 2 ^ (k + 2) = 4 * 2 ^ k) by (rewrite Z.pow_add_r by lia; ring).
      exists (A * A), (A * C + C), (a0 + a0 * a0 * 2 * 2 ^ k), (c0 + a0 * 2 ^ k * (2 * c0 + 1)). split; [|split].
      + intros x. rewrite Z.pow_succ_r by lia. replace (2 * 2 ^ k) with (2 ^ k + 2 ^ k) by ring.
        rewrite fiter_add by (apply Z.pow_nonneg; lia). rewrite !E. ring.
      + rewrite P, EA, Q. ring.
      + rewrite (Z.pow_succ_r 2 k) by lia. rewrite EA, EC, Q. ring.
  Qed.

  (** modulo 2^k every residue is reached from every start *)
  Lemma orbit k : 0 <= k -> forall x y, exists n, 0 <= n < 2 ^ k /\ (2 ^ k | fiter n x - y).
  Proof.
    revert k. apply (natlike_ind (fun k => forall x y, exists n, 0 <= n < 2 ^ k /\ (2 ^ k | fiter n x - y))).
    - intros x y. exists 0. split; [cbn; lia|]. exists (fiter 0 x - y). rewrite Z.pow_0_r. ring.
    - intros k Hk IH x y. destruct (IH x y) as (n & Hn & q & Hq).
      rewrite (Z.pow_succ_r 2 k) by lia.
      destruct (Z.Even_or_Odd q) as [[h Hh]|[h Hh]].
      + exists n. split; [lia|]. exists h. rewrite Hq, Hh. ring.
      + exists (2 ^ k + n). split; [lia|]. rewrite fiter_add by lia.
        destruct (doubling k Hk) as (A & C & a0 & c0 & E & EA & EC). rewrite E.
        exists (2 * a0 * fiter n x + c0 + 1 + h).
        assert (Q : 2 ^ (k + 2) = 4 * 2 ^ k) by (rewrite Z.pow_add_r by lia; ring).
        replace (A * fiter n x + C - y) with ((A - 1) * fiter n x + C + (fiter n x - y)) by ring.
        rewrite Hq, EA, EC, Q, Hh. ring.
  Qed.
End Period.

Fixpoint steps (n : nat) (g : rng) : rng := match n with O => g | S k => steps k (step g) end.

Lemma steps_last n g : steps (S n) g = step (steps n g).
Proof. revert g. induction n as [|n IH]; intros g; [reflexivity|]. cbn [steps] in *. rewrite IH. reflexivity. Qed.

Lemma steps_inc n g : inc (steps n g) = inc g.
Proof. induction n as [|n IH]; auto. rewrite steps_last. exact IH. Qed.

Lemma steps_state n g : 0 <= state g < 2 ^ 64 -> state (steps n g) = Nat.iter n (f (inc g)) (state g) mod 2 ^ 64.
Proof.
  intros H. induction n as [|n IH].
  - cbn. symmetry. apply Z.mod_small. exact H.
  - rewrite steps_last. unfold step at 1. cbn [state]. rewrite steps_inc, IH. unfold u64.
    change 18446744073709551616 with (2 ^ 64). cbn [Nat.iter nat_rect]. unfold f at 2.
    rewrite <- (Z.add_mod_idemp_l (_ * _)) by lia. rewrite Z.mul_mod_idemp_l by lia. rewrite Z.add_mod_idemp_l by lia. reflexivity.
Qed.

Lemma steps_usable n g : usable g -> usable (steps n g).
Proof.
  intros (Hs & Hi & Ho). split; [|rewrite steps_inc; auto]. rewrite steps_state by auto. apply Z.mod_pos_bound. lia.
Qed.

(** ** The bounded draw *)

Lemma rotr_range v r : 0 <= v < 2 ^ 32 -> 0 <= r -> 0 <= rotr v r < 2 ^ 32.
Proof.
  intros Hv Hr. unfold rotr.
  assert (A : 0 <= Z.shiftr v r < 2 ^ 32).
  { rewrite Z.shiftr_div_pow2 by lia. split; [apply Z.div_pos; [lia|apply Z.pow_pos_nonneg; lia]|].
    apply Z.le_lt_trans with v; [|lia]. apply Z.div_le_upper_bound; [apply Z.pow_pos_nonneg; lia|].
    assert (1 <= 2 ^ r) by (pose proof (Z.pow_pos_nonneg 2 r); lia). nia. }
  pose proof (u32_range (Z.shiftl v (Z.land (u32 (- r)) 31))) as B. set (b := u32 _) in *. set (a := Z.shiftr v r) in *.
  change 4294967296 with (2 ^ 32) in B. split.
  - apply Z.lor_nonneg. lia.
  - destruct (Z.eq_dec (Z.lor a b) 0) as [->|Hn]; [lia|].
    apply Z.log2_lt_pow2; [pose proof (proj2 (Z.lor_nonneg a b)); lia|]. rewrite Z.log2_lor by lia.
    destruct (Z.eq_dec a 0) as [Ea|Ea]; destruct (Z.eq_dec b 0) as [Eb|Eb]; try rewrite Ea; try rewrite Eb; cbn [Z.log2];
    apply Z.max_lub_lt; try lia; apply Z.log2_lt_pow2; lia.
Qed.

Lemma output_range s : 0 <= s -> 0 <= output s < 2 ^ 32.
Proof.
  intros H. unfold output. apply rotr_range; [apply u32_range|]. rewrite Z.shiftr_nonneg. exact H.
Qed.

Lemma neg32 b : 0 < b < 2 ^ 32 -> u32 (- b) = 2 ^ 32 - b.
Proof. intros H. unfold u32. rewrite <- (Z_mod_plus_full (- b) 1). rewrite Z.mod_small; lia. Qed.

Lemma threshold_half bound : 0 < bound < 2 ^ 32 -> 0 <= threshold bound <= 2 ^ 31.
Proof.
  intros H. unfold threshold. rewrite neg32 by lia.
  destruct (Z_le_gt_dec bound (2 ^ 31)) as [L|G].
  - pose proof (Z.mod_pos_bound (2 ^ 32 - bound) bound). lia.
  - rewrite Z.mod_small by lia. lia.
Qed.

Lemma draw_sound fuel : forall bound g v g', 0 < bound -> draw fuel bound g = Some (v, g') -> 0 <= v < bound.
Proof.
  induction fuel as [|n IH]; intros bound g v g' Hb E; [discriminate|]. cbn [draw next] in E.
  destruct (threshold bound <=? output (state g)).
  - injection E as <- _. apply Z.mod_pos_bound. lia.
  - eapply IH; eauto.
Qed.

(** a word of at least 2^31 is produced sooner or later *)
Lemma draw_hits bound n : forall g, threshold bound <= output (state (steps n g)) -> exists r, draw (S n) bound g = Some r.
Proof.
  induction n as [|n IH]; intros g H.
  - cbn [steps] in H. cbn [draw next]. rewrite (proj2 (Z.leb_le _ _) H). eauto.
  - cbn [steps] in H. destruct (IH (step g) H) as (r & Er). cbn [draw next]. cbn [draw next] in Er.
    destruct (threshold bound <=? output (state g)); eauto.
Qed.

(** ** Counting *)

Definition count (P : Z -> bool) (a : Z) (n : nat) : nat := length (filter P (map (fun i => a + Z.of_nat i) (seq 0 n))).

Lemma count_app P a n m : count P a (n + m) = (count P a n + count P (a + Z.of_nat n) m)%nat.
Proof.
  unfold count. rewrite seq_app, map_app, filter_app, app_length. f_equal. f_equal. f_equal. cbn [Nat.add].
  replace (seq n m) with (map (fun i => (n + i)%nat) (seq 0 m)).
  2:{ clear. revert n. induction m as [|m IH]; intros n; [reflexivity|]. cbn. f_equal; [lia|].
      rewrite <- (IH (S n)). rewrite <- seq_shift, map_map. apply map_ext. intros. lia. }
  rewrite map_map. apply map_ext. intros i. lia.
Qed.

Lemma count_ext P Q a n : (forall x, a <= x < a + Z.of_nat n -> P x = Q x) -> count P a n = count Q a n.
Proof.
  intros H. unfold count. f_equal. apply filter_ext_in. intros x Hx. apply in_map_iff in Hx.
  destruct Hx as (i & <- & Hi). apply in_seq in Hi. apply H. lia.
Qed.

Lemma count_false a n : count (fun _ => false) a n = 0%nat.
Proof. unfold count. induction (map _ _) as [|x l IH]; auto. Qed.

Lemma count_step P a n : count P a (S n) = ((if P a then 1 else 0) + count P (a + 1) n)%nat.
Proof.
  replace (S n) with (1 + n)%nat by lia. rewrite count_app. f_equal. unfold count. cbn. replace (a + 0) with a by lia.
  destruct (P a); reflexivity.
Qed.

(** exactly one value of an interval of length b has residue v *)
Lemma count_eq_one v a n : a <= v < a + Z.of_nat n -> count (fun x => x =? v) a n = 1%nat.
Proof.
  revert a. induction n as [|n IH]; intros a H; [lia|]. rewrite count_step. destruct (Z.eqb_spec a v) as [->|Hn].
  - rewrite (count_ext _ (fun _ => false)); [rewrite count_false; lia|]. intros x Hx. lia.
  - rewrite IH by lia. lia.
Qed.

Lemma window v b a : 0 < b -> 0 <= v < b -> count (fun x => x mod b =? v) a (Z.to_nat b) = 1%nat.
Proof.
  intros Hb Hv. set (w := a + (v - a) mod b).
  assert (Hw : a <= w < a + b) by (pose proof (Z.mod_pos_bound (v - a) b); lia).
  rewrite (count_ext _ (fun x => x =? w)); [apply count_eq_one; lia|].
  intros x Hx. assert (E : w mod b = v).
  { unfold w. rewrite Z.add_mod_idemp_r by lia. replace (a + (v - a)) with v by ring. apply Z.mod_small; lia. }
  destruct (Z.eqb_spec x w) as [->|Hn]; [apply Z.eqb_eq; exact E|]. apply Z.eqb_neq. intros Ex. apply Hn.
  assert (D : (x - w) mod b = 0) by (rewrite Zminus_mod, Ex, E, Z.sub_diag; apply Z.mod_0_l; lia).
  apply Z.div_exact in D; [|lia]. set (q := (x - w) / b) in *.
  rewrite Z2Nat.id in Hx by lia. assert (q = 0) by (clear - D Hx Hw Hb; nia). subst q. lia.
Qed.

Lemma windows v b q : forall a, 0 < b -> 0 <= v < b -> count (fun x => x mod b =? v) a (q * Z.to_nat b) = q.
Proof.
  induction q as [|q IH]; intros a Hb Hv; [reflexivity|]. cbn [Nat.mul]. rewrite count_app, window, IH by auto. lia.
Qed.

Lemma words_count P : length (filter P words) = count P 0 (Z.to_nat (2 ^ 32)).
Proof. unfold words, count. f_equal. Qed.

(** For every bound and every generator: the draw terminates, and its answer is below the bound. *)
Theorem C24_in_range : forall bound g, 0 < bound < 2 ^ 32 -> usable g ->
  exists v g', answers bound g v g' /\ 0 <= v < bound /\ usable g' /\
    forall v2 g2, answers bound g v2 g2 -> (v2, g2) = (v, g').
Proof.
  intros bound g Hb Hg. pose proof Hg as (Hs & Hi & Ho).
  destruct (orbit (inc g) Ho 64 ltac:(lia) (state g) (2 ^ 58)) as (n & Hn & D).
  assert (St : state (steps (Z.to_nat n) g) = 2 ^ 58).
  { rewrite steps_state by auto. destruct D as (q & D). unfold fiter in D.
    replace (Nat.iter _ _ _) with (2 ^ 58 + q * 2 ^ 64) by lia. rewrite Z_mod_plus_full. reflexivity. }
  destruct (draw_hits bound (Z.to_nat n) g) as ((v & g') & E).
  { rewrite St. replace (output (2 ^ 58)) with (2 ^ 31 + 2 ^ 13) by reflexivity. pose proof (threshold_half bound Hb). lia. }
  assert (NB : forall fu, next_bounded fu bound g = Ok (draw fu bound g)).
  { intros fu. unfold next_bounded. replace (bound =? 0) with false by lia. reflexivity. }
  exists v, g'. split; [exists (S (Z.to_nat n)); rewrite NB, E; reflexivity|].
  split; [eapply draw_sound; [|exact E]; lia|]. split.
  - clear - E Hg. revert E. generalize (S (Z.to_nat n)). intros k. revert g Hg.
    induction k as [|k IH]; intros g Hg E; [discriminate|]. cbn [draw next] in E.
    destruct (threshold bound <=? output (state g)); [injection E as <- <-|eapply IH; [|exact E]]; apply (steps_usable 1); auto.
  - intros v2 g2 (fu & E2). rewrite NB in E2. injection E2 as E2.
    assert (M : forall a b g r r', draw a bound g = Some r -> draw b bound g = Some r' -> r = r').
    { clear. induction a as [|a IH]; intros [|b] g r r' E E'; try discriminate. cbn [draw next] in *.
      destruct (threshold bound <=? output (state g)); [congruence|eauto]. }
    eapply M; eauto.
Qed.

(** The draw depends on the raw words only, one after the other... *)
Theorem C24_word_by_word : forall bound g fuel, bound <> 0 ->
  next_bounded (S fuel) bound g =
    match answer_of_word bound (fst (next g)) with
    | Some v => Ok (Some (v, snd (next g)))
    | None => next_bounded fuel bound (snd (next g))
    end.
Proof.
  intros bound g fuel Hb. unfold next_bounded, answer_of_word. replace (bound =? 0) with false by lia. cbn [draw next fst snd].
  destruct (threshold bound <=? output (state g)); reflexivity.
Qed.

(** ... and each possible answer is given by exactly the same number of the 2^32 raw words. *)
Theorem C24_uniform : forall bound v, 0 < bound < 2 ^ 32 -> 0 <= v < bound ->
  Z.of_nat (length (filter (leads_to bound v) words)) = 2 ^ 32 / bound.
Proof.
  intros b v Hb Hv. rewrite words_count. pose proof (threshold_half b Hb) as Ht.
  set (t := threshold b) in *. set (q := 2 ^ 32 / b).
  assert (Et : t = 2 ^ 32 mod b).
  { unfold t, threshold. rewrite neg32 by lia. rewrite <- (Z_mod_plus_full (2 ^ 32 - b) 1 b). f_equal. lia. }
  assert (Eq : 2 ^ 32 = b * q + t) by (rewrite Et; apply Z.div_mod; lia).
  assert (Hq : 0 <= q) by (apply Z.div_pos; lia).
  replace (Z.to_nat (2 ^ 32)) with (Z.to_nat t + Z.to_nat q * Z.to_nat b)%nat.
  2:{ rewrite <- Z2Nat.inj_mul, <- Z2Nat.inj_add by nia. f_equal. lia. }
  rewrite count_app. rewrite Z2Nat.id by lia. replace (0 + t) with t by ring.
  rewrite (count_ext _ (fun _ => false) 0), count_false.
  2:{ intros x Hx. rewrite Z2Nat.id in Hx by lia. unfold leads_to, answer_of_word. fold t. replace (t <=? x) with false by lia. reflexivity. }
  rewrite (count_ext _ (fun x => x mod b =? v) t), windows by
    (try lia; intros x Hx; unfold leads_to, answer_of_word; fold t; replace (t <=? x) with true by lia; reflexivity).
  lia.
Qed.

(** Every state of the generator is visited from every other, so no part of the range is out of reach. *)
Theorem C24_full_period : forall g s, usable g -> 0 <= s < 2 ^ 64 ->
  exists n, Z.of_nat n < 2 ^ 64 /\ state (steps n g) = s.
Proof.
  intros g s (Hs & Hi & Ho) H. destruct (orbit (inc g) Ho 64 ltac:(lia) (state g) s) as (n & Hn & q & D).
  exists (Z.to_nat n). split; [lia|]. rewrite steps_state by auto. unfold fiter in D.
  replace (Nat.iter _ _ _) with (s + q * 2 ^ 64) by lia. rewrite Z_mod_plus_full. apply Z.mod_small. exact H.
Qed.

(** Initialisation always gives a usable generator, and so does the static initialiser. *)
Theorem C24_initialised : forall s0 s1, 0 <= s0 < 2 ^ 64 -> 0 <= s1 < 2 ^ 64 -> usable (init s0 s1) /\ usable global_initializer.
Proof.
  intros s0 s1 H0 H1. split; [|repeat split; cbn; lia].
  unfold init. cbn [next snd step inc state]. unfold usable. cbn [inc state].
  pose proof (u64_range (Z.shiftl s1 1)) as R. set (w := u64 _) in *.
  assert (Ev : w mod 2 = 0).
  { unfold w, u64. rewrite Z.shiftl_mul_pow2 by lia. change (2 ^ 1) with 2. change 18446744073709551616 with (2 ^ 63 * 2).
    rewrite Z.mul_mod_distr_r by lia. apply Z_mod_mult. }
  assert (L : Z.land w 1 = 0) by (change 1 with (Z.ones 1); rewrite Z.land_ones by lia; exact Ev).
  assert (E : Z.lor w 1 = w + 1) by (rewrite Z.add_nocarry_lxor, Z.lxor_lor by exact L; reflexivity).
  rewrite E. split; [apply u64_range|]. split.
  - change (2 ^ 64) with 18446744073709551616. assert (w <> 18446744073709551615) by (intros X; rewrite X in Ev; discriminate). clear - R H. cbn [step inc]. lia.
  - cbn [step inc]. apply Z.odd_spec. exists (w / 2). pose proof (Z.div_mod w 2 ltac:(lia)). lia.
Qed.

(** bound zero divides by zero *)
Theorem C24_zero_bound_refuted : forall fuel g, next_bounded fuel 0 g = UB.
Proof. reflexivity. Qed.

(** A generator seeded with 42 and 54: hypotheses met, and the answers of three draws. *)
Example C24_ex :
  (exists v g', answers 257 (init 42 54) v g' /\ 0 <= v < 257) /\
  obind (next_bounded 5 257 (init 42 54)) (fun r => Ok (option_map fst r)) = Ok (Some (2707161783 mod 257)) /\
  obind (next_bounded 5 4294967295 (init 42 54)) (fun r => Ok (option_map fst r)) = Ok (Some 2707161783).
Proof.
  split; [|split; vm_compute; reflexivity].
  destruct (C24_in_range 257 (init 42 54)) as (v & g' & A & B & _); [lia|apply C24_initialised; lia|eauto].
Qed.

Print Assumptions C24_in_range.
Print Assumptions C24_word_by_word.
Print Assumptions C24_uniform.
Print Assumptions C24_full_period.
Print Assumptions C24_initialised.
Print Assumptions C24_zero_bound_refuted.
