From Verif Require Import Base Dhkey_Model Dhkey_Proofs Keycache_Model Route_Model Uuid_Model Metrics_Proofs Bloom_Model Bloom_Spec Bloom_Nbf Pheromone_Model Pheromone_Spec Pheromone_Filter Pheromone_Proofs Pheromone_Sim Pheromone_Hist Data_Model Out_Model Out_Spec Scent_Model Scent_Spec.
Open Scope Z_scope.

(** * Rounding *)
Definition tiny : Z := 2 ^ 1055.
Lemma second_tiny : second = 524288 * tiny. Proof. vm_compute. reflexivity. Qed.
Lemma tiny_pos : 0 < tiny. Proof. vm_compute. reflexivity. Qed.
Lemma step_range : 10004 * second <= 1000000 * delay_step <= 10006 * second.
Proof. assert (H : (10004 * second <=? 1000000 * delay_step) && (1000000 * delay_step <=? 10006 * second) = true) by (vm_compute; reflexivity). lia. Qed.
Lemma close_to x : Z.abs x < 2 ^ 1108 -> Z.abs (dl x 1 - x) <= tiny.
Proof.
  intros X. unfold dl. rewrite Z.div_1_r, Z.mul_1_l. set (k := Z.max 0 (Z.log2 (Z.abs x) - 52)).
  assert (K : 0 <= k <= 1055).
  { unfold k. destruct (Z.eq_dec (Z.abs x) 0) as [E|E]; [rewrite E; cbn; lia|]. assert (Z.log2 (Z.abs x) < 1108) by (apply Z.log2_lt_pow2; lia). lia. }
  clearbody k. pose proof (Z.pow_pos_nonneg 2 k ltac:(lia) ltac:(lia)) as P.
  assert (Q : 2 ^ k <= tiny) by (unfold tiny; apply Z.pow_le_mono_r; lia).
  set (a := Z.abs x) in *. assert (A : 0 <= a) by (unfold a; lia).
  assert (R : Z.abs (round_even a (2 ^ k) * 2 ^ k - a) <= 2 ^ k).
  { pose proof (re_cases a (2 ^ k) P) as C. pose proof (Z.div_mod a (2 ^ k) ltac:(lia)) as D. pose proof (Z.mod_pos_bound a (2 ^ k) P). nia. }
  assert (S : x = Z.sgn x * a) by (unfold a; lia). set (y := round_even a (2 ^ k) * 2 ^ k) in *. clearbody y.
  destruct (Z.sgn_spec x) as [[? E]|[[? E]|[? E]]]; rewrite E in *; lia.
Qed.
Lemma dl_neg x : x <= 0 -> dl x 1 <= 0.
Proof.
  intros X. unfold dl. rewrite Z.div_1_r, Z.mul_1_l. set (k := Z.max 0 _). pose proof (Z.pow_pos_nonneg 2 k ltac:(lia) ltac:(lia)) as P.
  pose proof (re_cases (Z.abs x) (2 ^ k) P). pose proof (Z.div_pos (Z.abs x) (2 ^ k) ltac:(lia) P).
  destruct (Z.eq_dec x 0) as [->|]; [cbn; lia|]. rewrite Z.sgn_neg by lia. nia.
Qed.
Lemma big_tiny : 2 ^ 1107 = 2 ^ 33 * second /\ 2 ^ 1108 = 2 ^ 34 * second /\ 2 ^ 1074 = second.
Proof. vm_compute. auto. Qed.

(** the number of rounds *)
Opaque tiny second delay_step.
Lemma one_round t now : Z.abs t <= 2 ^ 33 * second -> t < now -> now <= 2 ^ 33 * second ->
  exists t', dadd (Fin t) delay_step = Fin t' /\ second <= 100 * (t' - t) /\ 10000 * (t' - t) <= 101 * second.
Proof.
  intros T L N. cbn [dadd]. eexists. split; [reflexivity|]. pose proof step_range. pose proof tiny_pos. pose proof second_tiny. destruct big_tiny as (_ & B & _).
  pose proof (close_to (t + delay_step)). rewrite B in *. lia.
Qed.

Lemma decay_rounds now : 0 <= now <= 2 ^ 33 * second -> forall n t, 100 * (now - t) <= Z.of_nat n * second -> - (2 ^ 33 * second) <= t ->
  exists k, rounds t now (Z.of_nat k) /\ forall fuel b,
    ((k <= fuel)%nat -> decay fuel (Fin t) now b = lift (fade k b)) /\
    ((fuel < k)%nat -> (exists b', fade fuel b = Ok b') -> decay fuel (Fin t) now b = Hangs).
Proof.
  intros N. pose proof tiny_pos as TP. pose proof second_tiny as ST. destruct big_tiny as (_ & _ & B1).
  induction n as [|n IH]; intros t D T.
  - exists 0%nat. split; [unfold rounds; rewrite B1; lia|]. intros fuel b. split; [|lia]. intros _. destruct fuel; cbn [decay below]; replace (t <? now) with false by lia; reflexivity.
  - destruct (Z.ltb_spec t now) as [L|L].
    + destruct (one_round t now ltac:(lia) L ltac:(lia)) as (t' & E & G1 & G2).
      destruct (IH t' ltac:(lia) ltac:(lia)) as (k & R & H). exists (S k). split.
      * unfold rounds in *. rewrite B1 in *. rewrite Nat2Z.inj_succ. lia.
      * intros fuel b. split.
        -- intros F. destruct fuel as [|f]; [lia|]. cbn [decay below fade]. replace (t <? now) with true by lia. rewrite E. destruct (nbf_age_dec b) as [b'| |]; cbn [lift rbind obind]; [|reflexivity|reflexivity].
           apply H. lia.
        -- intros F (b' & Q). destruct fuel as [|f]; cbn [decay below]; replace (t <? now) with true by lia; [reflexivity|]. rewrite E. cbn [fade] in Q.
           destruct (nbf_age_dec b) as [b1| |]; cbn [lift rbind obind] in *; try discriminate. apply H; [lia|eauto].
    + exists 0%nat. split; [unfold rounds; rewrite B1; lia|]. intros fuel b. split; [|lia]. intros _. destruct fuel; cbn [decay below]; replace (t <? now) with false by lia; reflexivity.
Qed.
Lemma decay_any now t : 0 <= now <= 2 ^ 33 * second -> - (2 ^ 33 * second) <= t ->
  exists k, rounds t now (Z.of_nat k) /\ forall fuel b,
    ((k <= fuel)%nat -> decay fuel (Fin t) now b = lift (fade k b)) /\
    ((fuel < k)%nat -> (exists b', fade fuel b = Ok b') -> decay fuel (Fin t) now b = Hangs).
Proof.
  intros N T. pose proof tiny_pos. pose proof second_tiny. apply (decay_rounds now N (Z.to_nat (100 * Z.max 0 (now - t)))); [|exact T].
  assert (0 <= 100 * Z.max 0 (now - t)) by lia. rewrite Z2Nat.id by lia. nia.
Qed.
(** what has not expired is not old *)
Lemma unexpired u ttl now : 0 <= ttl < 2 ^ 32 -> second <= now <= 2 ^ 33 * second -> part_expired (Fin u) ttl now = false -> now - (ttl * second + tiny) <= u.
Proof.
  intros T N. unfold part_expired. cbn [dadd below]. pose proof tiny_pos. pose proof second_tiny. destruct big_tiny as (_ & B & _).
  destruct (Z.leb_spec (u + ttl * second) 0) as [L|L]; [pose proof (dl_neg _ L); lia|].
  destruct (Z.leb_spec now (u + ttl * second)) as [L'|L']; [lia|].
  pose proof (close_to (u + ttl * second)) as NR. rewrite B in NR. lia.
Qed.

(** * One scent *)
Lemma fold_same (l : list Z) f a x : 0 < a -> (forall k, In k l -> f k = a) ->
  fold_left (fun c k => if 0 <? f k then if c <? f k then c else f k else 0) l x = if (length l =? 0)%nat then x else Z.min x a.
Proof.
  intros A. revert x. induction l as [|k l IH]; intros x H; cbn [fold_left length Nat.eqb]; [reflexivity|]. rewrite IH by (intros; apply H; right; auto).
  rewrite (H k) by (left; auto). replace (0 <? a) with true by lia. destruct (Z.ltb_spec x a), (length l =? 0)%nat; lia.
Qed.
Lemma ent_age s a p : wf_key s -> regular s -> Ent s a 1 p -> nbf_intersect_age p p = Ok a.
Proof.
  intros W R En. destruct (ent_intersect_age p _ _ s a 1 p W R (en_ns _ _ _ _ En) En) as (v & E & Z0).
  { intros c Hc. apply has_in in Hc. unfold mark. rewrite Hc. lia. }
  change (1 mod 32) with 1 in Z0. pose proof (en_a _ _ _ _ En) as Ra. destruct (Z.eq_dec a 0) as [->|NZ]; [rewrite E; f_equal; apply Z0; auto|].
  rewrite E. f_equal. revert E. unfold nbf_intersect_age. destruct (negb _); [discriminate|]. intros [= E].
  pose proof (marked_len s a 1 p p _ _ W R En (en_ns _ _ _ _ En) ltac:(lia)) as ML.
  rewrite (fold_same _ (age p) a) in E; [| lia |].
  - rewrite ML in E. cbn [Nat.eqb] in E. destruct (_ =? 0) eqn:Q in E; [|rewrite Z.min_r in E; lia]. lia.
  - intros k Hk. apply filter_In in Hk. destruct Hk as [Hk Hp]. pose proof (en_ns _ _ _ _ En) as N. apply (cells_in _ _ _ _ N) in Hk. destruct Hk as (c & V & ->).
    rewrite (age_ns _ _ _ _ N V) in *. unfold mark in *. destruct (has s c); lia.
Qed.
(** a message with the scent of one subject, as another node makes it, after [k] rounds *)
Lemma one_scent fuel me audience prev t now tb s r b k : wf_key s -> regular s -> nbf_add nbf_create s = Ok b -> decay fuel t now b = lift (fade k b) ->
  exists p, Ent s (strength k) 1 p /\
    in_update fuel me audience prev t now tb [(position s r, b)] =
      if strength k =? 0 then Done (tb, []) else
      rbind (lift (if r then snuffle_sender tb audience (strength k) else snuffle_receiver tb audience (strength k))) (fun '(ks, _) =>
      rbind (lift (step tb (Smell s prev r k now))) (fun '(tb', u) =>
      Done (tb', if u then audience :: filter (fun k => negb (np_dhkey_equal k prev) && negb (np_dhkey_equal k me)) ks else []))).
Proof.
  intros W R Eb D. destruct (ent_new s W R) as (b0 & E0 & En0). rewrite Eb in E0. injection E0 as <-. destruct (fade_ok s k 128 b En0) as (p & Ep & En).
  change (Nat.iter k faded 128) with (strength k) in En. exists p. split; [exact En|].
  cbn [step]. rewrite Eb. cbn [obind]. unfold in_pheromone. rewrite Ep. cbn [obind]. rewrite (ent_age s _ p W R En). cbn [obind].
  unfold in_update. cbn [sniff]. rewrite D, Ep. cbn [lift rbind]. rewrite (ent_age s _ p W R En). cbn [lift rbind].
  destruct (strength k =? 0); [reflexivity|]. destruct (position_sign s r W) as (P & Pi & Pr).
  destruct r.
  - replace (position s true <? 0) with false by lia. replace ((0 <? position s true) && (position s true <=? 257)) with true by lia.
    destruct (snuffle_sender _ _ _) as [[ks c]| |]; cbn [lift rbind]; auto. destruct (inhale _ _ _) as [[tb' u]| |]; cbn [lift rbind]; auto. rewrite app_nil_r, orb_false_r. reflexivity.
  - replace (position s false <? 0) with true by lia. replace (-257 <=? position s false) with true by lia.
    destruct (snuffle_receiver _ _ _) as [[ks c]| |]; cbn [lift rbind]; auto. destruct (inhale _ _ _) as [[tb' u]| |]; cbn [lift rbind]; auto. rewrite app_nil_r, orb_false_r. reflexivity.
Qed.
Lemma decay_never fuel now t b k : (forall b, decay fuel t now b = lift (fade k b)) -> decay fuel t now b <> Hangs.
Proof. intros H. rewrite H. destruct (fade k b); discriminate. Qed.
Lemma sniff_ends fuel audience prev t now : (forall b, decay fuel t now b <> Hangs) -> forall l tb, sniff fuel audience prev t now tb l <> Hangs.
Proof.
  intros H. induction l as [|[i b] l IH]; intros tb; cbn [sniff]; [discriminate|]. specialize (H b). destruct (decay fuel t now b) as [p| | |]; cbn [rbind]; try discriminate; [|congruence].
  destruct (nbf_intersect_age p p) as [a| |]; cbn [lift rbind]; try discriminate. destruct (a =? 0); [apply IH|].
  destruct (i <? 0); [destruct (-257 <=? i)|destruct ((0 <? i) && (i <=? 257))]; cbn [rbind]; try discriminate;
    (destruct (snuffle_receiver tb audience a) as [[ks c]| |], (snuffle_sender tb audience a) as [[ks2 c2]| |]; cbn [lift rbind]; try discriminate;
     match goal with |- context [inhale tb ?s now] => destruct (inhale tb s now) as [[tb' u]| |]; cbn [lift rbind]; try discriminate; specialize (IH tb'); destruct (sniff fuel audience prev t now tb' l) as [[[] ]| | |]; cbn [rbind]; congruence end).
Qed.
(** whole seconds are doubles *)
Lemma whole n : 1 <= n <= 2 ^ 33 -> dl (n * second) 1 = n * second.
Proof.
  intros N. unfold dl. rewrite Z.div_1_r, Z.mul_1_l. assert (P : 0 < second) by (pose proof tiny_pos; pose proof second_tiny; lia).
  rewrite Z.abs_eq by nia. rewrite Z.sgn_pos by nia. destruct big_tiny as (B1 & B2 & B3).
  set (k := Z.max 0 _). assert (K : 0 <= k <= 1055).
  { unfold k. assert (Z.log2 (n * second) < 1108) by (apply Z.log2_lt_pow2; [nia|rewrite B2; nia]). lia. }
  clearbody k. assert (Q : n * second = n * 2 ^ (1074 - k) * 2 ^ k).
  { rewrite <- B3, <- Z.mul_assoc, <- Z.pow_add_r by lia. do 2 f_equal. lia. }
  rewrite Q, re_exact by (apply Z.pow_pos_nonneg; lia). lia.
Qed.
