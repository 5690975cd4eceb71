(** Proofs for the counting filter and the rate limit. *)
From Verif Require Import Base Dhkey_Model Bloom_Model Bloom_Spec Bloom_Std Bloom_Decay.

Definition count (n pos : Z) (ws : list Z) : Z := Z.of_nat (length (filter (fun v => v mod n =? pos) ws)).
Lemma count_cons n pos w ws : count n pos (w :: ws) = (if w mod n =? pos then 1 else 0) + count n pos ws.
Proof. unfold count. cbn [filter]. destruct (_ =? _); cbn [length]; lia. Qed.
Lemma count_nonneg n pos ws : 0 <= count n pos ws. Proof. unfold count. lia. Qed.
Lemma count_le n pos ws : count n pos ws <= Z.of_nat (length ws).
Proof. induction ws as [|w ws IH]; [cbn; lia|]. rewrite count_cons. cbn [length]. destruct (_ =? _); lia. Qed.
Lemma count_pos n pos ws : 0 < count n pos ws <-> existsb (fun v => v mod n =? pos) ws = true.
Proof.
  induction ws as [|w ws IH]; [cbn; split; [lia|discriminate]|]. rewrite count_cons. cbn [existsb]. pose proof (count_nonneg n pos ws).
  destruct (w mod n =? pos); cbn; [split; [auto|lia]|]. rewrite <- IH. lia.
Qed.
Lemma hits_cons n pos id l : hits n pos (id :: l) = count n pos id + hits n pos l. Proof. reflexivity. Qed.
Lemma hits_nonneg n pos l : 0 <= hits n pos l.
Proof. induction l as [|id l IH]; [cbn; lia|]. rewrite hits_cons. pose proof (count_nonneg n pos id). lia. Qed.
Lemma hits_le n pos l : Forall wf_key l -> hits n pos l <= 8 * Z.of_nat (length l).
Proof.
  induction 1 as [|id l [Hl _] _ IH]; [cbn; lia|]. rewrite hits_cons. pose proof (count_le n pos id). cbn [length]. lia.
Qed.
Lemma hits_hit n w l : (0 <? hits n (w mod n) l) = hit n w l.
Proof.
  unfold hit. induction l as [|id l IH]; [reflexivity|]. rewrite hits_cons. cbn [existsb]. rewrite <- IH.
  pose proof (hits_nonneg n (w mod n) l). pose proof (count_nonneg n (w mod n) id). pose proof (count_pos n (w mod n) id) as C.
  destruct (existsb _ id) eqn:E; cbn [orb].
  - assert (0 < count n (w mod n) id) by (apply C; auto). lia.
  - assert (~ 0 < count n (w mod n) id) by (rewrite C; discriminate). lia.
Qed.
Lemma key_eqb_eq a b : key_eqb a b = true <-> a = b.
Proof. unfold key_eqb. destruct (list_eq_dec Z.eq_dec a b); split; auto; discriminate. Qed.
Lemma hits_remove n pos id l : In id l -> hits n pos (remove1 id l) = hits n pos l - count n pos id.
Proof.
  induction l as [|x l IH]; [intros []|]. intros H. cbn [remove1]. destruct (key_eqb x id) eqn:E.
  - apply key_eqb_eq in E. subst. rewrite hits_cons. lia.
  - rewrite !hits_cons, IH; [lia|]. destruct H as [->|H]; auto. assert (key_eqb id id = true) by (apply key_eqb_eq; auto). congruence.
Qed.
Lemma remove_length id l : In id l -> length l = S (length (remove1 id l)).
Proof.
  induction l as [|x l IH]; [intros []|]. intros H. cbn [remove1]. destruct (key_eqb x id) eqn:E; [reflexivity|]. cbn [length].
  rewrite IH; auto. destruct H as [->|H]; auto. assert (key_eqb id id = true) by (apply key_eqb_eq; auto). congruence.
Qed.
Lemma count_hits n pos id l : In id l -> count n pos id <= hits n pos l.
Proof.
  induction l as [|x l IH]; [intros []|]. intros [->|H]; rewrite hits_cons; [pose proof (hits_nonneg n pos l); lia|].
  pose proof (count_nonneg n pos x). specialize (IH H). lia.
Qed.

Lemma iter_S {A} (f : A -> A) k x : Nat.iter (S k) f x = f (Nat.iter k f x). Proof. reflexivity. Qed.
Lemma iter_swap {A} (f : A -> A) k x : Nat.iter (S k) f x = Nat.iter k f (f x).
Proof. induction k as [|k IH]; [reflexivity|]. change (f (Nat.iter (S k) f x) = f (Nat.iter k f (f x))). rewrite IH. reflexivity. Qed.
Section Counting.
  Variables (n c : Z).
  Hypothesis Hn : 0 < n.
  Hypothesis Hc : 1 <= c.
  Hypothesis Hb : n * (8 * c) < 1048576.
  Lemma cell_ok_c w : counting_cell n (8 * c) w = Ok (w mod n * c) /\ 0 <= w mod n * c < n * c.
  Proof.
    pose proof (pos_range n Hn w). unfold counting_cell, modulo. replace (n =? 0) with false by lia. cbn [obind].
    split; [|nia]. f_equal. rewrite u32_id by nia. rewrite Z.shiftr_div_pow2 by lia. change (2 ^ 3) with 8.
    replace (w mod n * (8 * c)) with (w mod n * c * 8) by lia. apply Z.div_mul. lia.
  Qed.
  Lemma cell_inj x y : 0 <= x -> 0 <= y -> x * c = y * c -> x = y. Proof. intros. nia. Qed.
  (** for any change of a byte *)
  Lemma each_cells f ws : forall m, len m = n * c -> exists m', each ws (fun w m => obind (counting_cell n (8 * c) w) (fun a => modify m a f)) m = Ok m' /\ len m' = n * c /\
    (forall pos, 0 <= pos < n -> at_ m' (pos * c) = Nat.iter (Z.to_nat (count n pos ws)) f (at_ m (pos * c))).
  Proof.
    induction ws as [|w ws IH]; intros m L; cbn [each]; [exists m; auto|]. destruct (cell_ok_c w) as [E R]. rewrite E. cbn [obind].
    unfold modify. rewrite rd_ok by (rewrite L; exact R). cbn [obind]. destruct (IH (put m (w mod n * c) (f (at_ m (w mod n * c)))) L) as (m' & E' & L' & C).
    exists m'. split; auto. split; auto. intros pos Hp. rewrite C by auto. rewrite count_cons. cbn [put at_]. pose proof (count_nonneg n pos ws). pose proof (pos_range n Hn w).
    destruct (Z.eqb_spec (w mod n) pos) as [<-|N].
    - rewrite Z.eqb_refl. replace (Z.to_nat (1 + count n (w mod n) ws)) with (S (Z.to_nat (count n (w mod n) ws))) by lia. rewrite iter_swap. reflexivity.
    - destruct (Z.eqb_spec (pos * c) (w mod n * c)) as [E1|_]; [apply cell_inj in E1; lia|]. rewrite Z.add_0_l. reflexivity.
  Qed.
  Lemma iter_inc k v : 0 <= v < 256 -> Nat.iter k (fun v => u8 (v + 1)) v = u8 (v + Z.of_nat k).
  Proof.
    intros Hv. induction k as [|k IH]; [cbn; rewrite Z.add_0_r, u8_id by lia; reflexivity|]. rewrite iter_S, IH. unfold u8. rewrite Z.add_mod_idemp_l by lia. f_equal. lia.
  Qed.
  Lemma iter_dec k v : 0 <= v < 256 -> Nat.iter k (fun v => if 0 <? v then u8 (v - 1) else v) v = Z.max 0 (v - Z.of_nat k).
  Proof.
    intros Hv. induction k as [|k IH]; [cbn; lia|]. rewrite iter_S, IH. destruct (Z.ltb_spec 0 (Z.max 0 (v - Z.of_nat k))); [rewrite u8_id by lia|]; lia.
  Qed.
  (** [base]: what the cells hold besides [l] *)
  Record CInv (base : Z -> Z) (F : Z) (l : list key) (b : bloom) : Prop := {
    ci_size : size b = n;
    ci_d : d b = 8 * c;
    ci_len : len (bits b) = n * c;
    ci_cells : forall pos, 0 <= pos < n -> at_ (bits b) (pos * c) = base pos + hits n pos l;
    ci_free : free_items b = F - Z.of_nat (length l) }.
  Lemma c_add base F l b id : CInv base F l b -> (forall pos, 0 <= base pos) -> F < 65536 -> Z.of_nat (length l) < F -> (forall pos, base pos + hits n pos (id :: l) <= 255) ->
    exists b', counting_add b id = Ok b' /\ CInv base F (id :: l) b' /\ p b' = p b.
  Proof.
    intros Inv B0 HF Hl Hh. unfold counting_add. rewrite (ci_free _ _ _ _ Inv), (ci_size _ _ _ _ Inv), (ci_d _ _ _ _ Inv).
    replace (F - Z.of_nat (length l) =? 0) with false by lia.
    destruct (each_cells (fun v => u8 (v + 1)) id (bits b) (ci_len _ _ _ _ Inv)) as (m' & E & L & C). rewrite E. cbn [obind]. eexists. split; [reflexivity|]. split; [|reflexivity].
    constructor; cbn [size d bits free_items set_free set_bits].
    - apply Inv.
    - apply Inv.
    - exact L.
    - intros pos Hp. rewrite C, (ci_cells _ _ _ _ Inv) by auto. specialize (Hh pos). specialize (B0 pos). rewrite hits_cons in Hh |- *.
      pose proof (hits_nonneg n pos l). pose proof (count_nonneg n pos id). rewrite iter_inc by lia. rewrite Z2Nat.id by lia. rewrite u8_id by lia. lia.
    - cbn [length]. rewrite u16_id by lia. lia.
  Qed.
  Lemma c_remove F l b id : CInv (fun _ => 0) F l b -> F < 65536 -> Z.of_nat (length l) < F -> (forall pos, hits n pos l <= 255) -> In id l ->
    exists b', counting_remove b id = Ok b' /\ CInv (fun _ => 0) F (remove1 id l) b'.
  Proof.
    intros Inv HF Hl Hh Hin. unfold counting_remove. rewrite (ci_free _ _ _ _ Inv), (ci_size _ _ _ _ Inv), (ci_d _ _ _ _ Inv).
    replace (F - Z.of_nat (length l) =? 0) with false by lia.
    destruct (each_cells (fun v => if 0 <? v then u8 (v - 1) else v) id (bits b) (ci_len _ _ _ _ Inv)) as (m' & E & L & C). rewrite E. cbn [obind]. eexists. split; [reflexivity|].
    constructor; cbn [size d bits free_items set_free set_bits].
    - apply Inv.
    - apply Inv.
    - exact L.
    - intros pos Hp. rewrite C, (ci_cells _ _ _ _ Inv) by auto. specialize (Hh pos). rewrite hits_remove by auto.
      pose proof (hits_nonneg n pos l). pose proof (count_nonneg n pos id). pose proof (count_hits n pos id l Hin). rewrite iter_dec by lia. rewrite Z2Nat.id by lia. lia.
    - pose proof (remove_length id l Hin). rewrite u16_id by lia. lia.
  Qed.
  Lemma c_check F l b id : CInv (fun _ => 0) F l b -> (forall pos, hits n pos l <= 254) -> counting_check b id = Ok (covered n l id).
  Proof.
    intros Inv Hh. unfold counting_check, covered. induction id as [|w id IH]; cbn [every_full forallb]; [reflexivity|].
    rewrite (ci_size _ _ _ _ Inv), (ci_d _ _ _ _ Inv). destruct (cell_ok_c w) as [E R]. rewrite E. cbn [obind].
    rewrite rd_ok by (rewrite (ci_len _ _ _ _ Inv); exact R). cbn [obind]. rewrite (ci_size _ _ _ _ Inv), (ci_d _ _ _ _ Inv) in IH. rewrite IH. cbn [obind].
    f_equal. f_equal. rewrite (ci_cells _ _ _ _ Inv) by (apply pos_range; auto). rewrite Z.add_0_l, <- hits_hit. pose proof (hits_nonneg n (w mod n) l). specialize (Hh (w mod n)). lia.
  Qed.
  Lemma c_create pp : 1 <= pp -> 8 * c < 256 -> exists b, counting_create n (8 * c) pp = Ok b /\ CInv (fun _ => 0) (n * c / 2) [] b /\ p b = pp.
  Proof.
    intros Hp H8. unfold counting_create. replace ((8 <=? 8 * c) && (8 * c mod 2 =? 0) && (1 <=? pp)) with true.
    2:{ replace (8 * c) with (4 * c * 2) at 2 by lia. rewrite Z.mod_mul by lia. lia. }
    eexists. split; [reflexivity|]. split; [|reflexivity]. constructor; cbn [size d bits free_items calloc len at_].
    - reflexivity.
    - reflexivity.
    - rewrite Z.shiftr_div_pow2 by lia. change (2 ^ 3) with 8. rewrite (Z.mul_comm 8 c), Z.div_mul by lia. reflexivity.
    - reflexivity.
    - rewrite Z.shiftr_div_pow2 by lia. change (2 ^ 4) with (8 * 2). replace (n * (8 * c)) with (8 * (n * c)) by lia. rewrite Z.div_mul_cancel_l by lia.
      rewrite u16_id; [cbn; lia|]. split; [apply Z.div_pos; nia|]. apply Z.div_lt_upper_bound; nia.
  Qed.
  Lemma c_history F bound h : F < 65536 -> bound <= 255 -> forall l b, CInv (fun _ => 0) F l b -> (forall pos, hits n pos l <= bound) -> cvalid n F bound l h ->
    exists b', capply_all b h = Ok b' /\ CInv (fun _ => 0) F (fold_left cstep h l) b' /\ (forall pos, hits n pos (fold_left cstep h l) <= bound).
  Proof.
    intros HF HB. induction h as [|o h IH]; intros l b Inv Hh V; cbn [capply_all fold_left]; [eauto|]. cbn [cvalid] in V. destruct V as (V1 & V2 & V3 & V4).
    assert (X : exists b1, capply b o = Ok b1 /\ CInv (fun _ => 0) F (cstep l o) b1).
    { destruct o as [id|id]; cbn [capply cstep] in *.
      - destruct (c_add (fun _ => 0) F l b id Inv) as (b1 & E1 & I1 & _); auto; [lia| |eauto]. intros pos. specialize (V3 pos). lia.
      - apply (c_remove F l b id); auto. intros pos. specialize (Hh pos). lia. }
    destruct X as (b1 & E1 & I1). rewrite E1. cbn [obind]. apply IH; auto.
  Qed.
End Counting.

(** * Rate limit *)
Record LInv (mx : Z) (l : limiter) : Prop := {
  li_size : size (filter_ l) = 8192;
  li_d : d (filter_ l) = 8;
  li_p : p (filter_ l) = 1;
  li_len : len (bits (filter_ l)) = 8192;
  li_cells : forall k, 0 <= k < 8192 -> 0 <= at_ (bits (filter_ l)) k < 256;
  li_free : 0 <= free_items (filter_ l) <= 4096;
  li_max : max_per_sec l = mx }.
Definition limit_of (configured : Z) : Z := if 0 <? configured then configured else 256.
Lemma limit_pos c : 0 < limit_of c. Proof. unfold limit_of. destruct (0 <? c) eqn:E; lia. Qed.
Lemma l_init c : exists l, limiter_init c = Ok l /\ LInv (limit_of c) l /\ (forall k, at_ (bits (filter_ l)) k = 0) /\ free_items (filter_ l) = 4096.
Proof. eexists. split; [reflexivity|]. split; [constructor; try reflexivity; [intros; cbn; lia|split; vm_compute; discriminate]|]. split; reflexivity. Qed.
Lemma masked_ok mx l w : LInv mx l -> masked_cell (filter_ l) w = w mod 8192 /\ 0 <= w mod 8192 < 8192.
Proof.
  intros L. assert (S : stable_ok 13 (filter_ l)). { split; [rewrite (li_size _ _ L); reflexivity|]. split; [lia|]. split; [apply L|]. rewrite (li_len _ _ L). reflexivity. }
  apply (stable_cell_ok 13 (filter_ l) w S).
Qed.
Lemma load_bound mx l : LInv mx l -> forall ws c, 0 <= c <= 254 -> exists c', load (filter_ l) ws c = Ok c' /\ c <= c' <= 254.
Proof.
  intros L. induction ws as [|w ws IH]; intros c Hc; cbn [load]; [exists c; split; [reflexivity|lia]|]. destruct (masked_ok mx l w L) as [E R].
  rewrite rd_ok by (rewrite E, (li_len _ _ L); exact R). cbn [obind]. rewrite E. pose proof (li_cells _ _ L _ R). destruct ((_ =? 0) || _) eqn:Q; [exists c; split; [reflexivity|lia]|].
  destruct (IH (if c <? at_ (bits (filter_ l)) (w mod 8192) then at_ (bits (filter_ l)) (w mod 8192) else c)) as (c' & E' & B); [destruct (_ <? _) eqn:?; lia|]. exists c'. split; auto. destruct (_ <? _) eqn:? in B; lia.
Qed.
(** cells of a peer that sent [v] packets: at least [v] is found *)
Lemma load_ge mx l v : LInv mx l -> 1 <= v -> forall ws c c', (forall w, In w ws -> v <= at_ (bits (filter_ l)) (w mod 8192) <= 254) -> load (filter_ l) ws c = Ok c' -> c <= c' /\ (ws = [] \/ v <= c').
Proof.
  intros L Hv. induction ws as [|w ws IH]; intros c c' H E; cbn [load] in E; [injection E as ->; split; [lia|auto]|]. destruct (masked_ok mx l w L) as [E1 R].
  rewrite rd_ok in E by (rewrite E1, (li_len _ _ L); exact R). cbn [obind] in E. rewrite E1 in E. pose proof (H w (or_introl eq_refl)) as Hw.
  replace ((_ =? 0) || _) with false in E by lia. apply IH in E as [E _]; [|intros w' Hw'; apply H; right; exact Hw']. destruct (_ <? _) eqn:? in E; split; try (right; lia); lia.
Qed.
Lemma load_le mx l : LInv mx l -> forall ws c c', load (filter_ l) ws c = Ok c' -> c < c' -> exists w, In w ws /\ at_ (bits (filter_ l)) (w mod 8192) = c'.
Proof.
  intros L. induction ws as [|w ws IH]; intros c c' E Hc; cbn [load] in E; [injection E as ->; lia|]. destruct (masked_ok mx l w L) as [E1 R].
  rewrite rd_ok in E by (rewrite E1, (li_len _ _ L); exact R). cbn [obind] in E. rewrite E1 in E. destruct ((_ =? 0) || _); [injection E as ->; lia|].
  destruct (Z.ltb_spec c (at_ (bits (filter_ l)) (w mod 8192))).
  - destruct (Z.eq_dec (at_ (bits (filter_ l)) (w mod 8192)) c') as [<-|N]; [exists w; split; [left|]; reflexivity|].
    assert (Q : at_ (bits (filter_ l)) (w mod 8192) < c'). { destruct (load_ge mx l 1 L ltac:(lia) [] 0 0) as [_ _]; [intros ? []|reflexivity|].
      assert (M : forall ws c c', load (filter_ l) ws c = Ok c' -> c <= c'). { clear - L. induction ws as [|w ws IH]; intros c c' E; cbn [load] in E; [injection E as ->; lia|]. destruct (masked_ok mx l w L) as [E1 R].
        rewrite rd_ok in E by (rewrite E1, (li_len _ _ L); exact R). cbn [obind] in E. destruct ((_ =? 0) || _); [injection E as ->; lia|]. apply IH in E. destruct (_ <? _) eqn:? in E; lia. }
      apply M in E. lia. }
    destruct (IH _ _ E Q) as (w' & Hw & Ew). exists w'. split; [right|]; auto.
  - destruct (IH _ _ E Hc) as (w' & Hw & Ew). exists w'. split; [right|]; auto.
Qed.
Lemma each_ex f n c ws m : 0 < n -> 1 <= c -> n * (8 * c) < 1048576 -> len m = n * c -> exists m', each ws (fun w m => obind (counting_cell n (8 * c) w) (fun a => modify m a f)) m = Ok m' /\ len m' = n * c /\
    (forall pos, 0 <= pos < n -> at_ m' (pos * c) = Nat.iter (Z.to_nat (count n pos ws)) f (at_ m (pos * c))).
Proof. intros H1 H2 H3. apply each_cells; auto. Qed.
Lemma packet_cases mx l x : LInv mx l -> 0 < mx -> exists c, counting_check_r (filter_ l) x 0 = Ok c /\ 0 <= c <= 254 /\
  ((mx < c /\ packet l x = Ok (false, l)) \/
   (c <= mx /\ free_items (filter_ l) = 0 /\ packet l x = Abort) \/
   (c <= mx /\ free_items (filter_ l) <> 0 /\ exists l', packet l x = Ok (true, l') /\ LInv mx l' /\ free_items (filter_ l') = free_items (filter_ l) - 1 /\
     (forall pos, 0 <= pos < 8192 -> at_ (bits (filter_ l')) pos = u8 (at_ (bits (filter_ l)) pos + count 8192 pos x)))).
Proof.
  intros L Hm. destruct (load_bound mx l L x 0) as (c & E & B); [lia|]. exists c. split; [exact E|]. split; [lia|]. unfold packet, counting_check_r. rewrite (li_max _ _ L). replace (0 <? mx) with true by lia.
  rewrite E. cbn [obind]. destruct (Z.ltb_spec mx c); [left; auto|]. right. unfold counting_add. destruct (Z.eqb_spec (free_items (filter_ l)) 0); [left; auto|]. right. split; [lia|]. split; [auto|].
  rewrite (li_size _ _ L), (li_d _ _ L). destruct (each_ex (fun v => u8 (v + 1)) 8192 1 x (bits (filter_ l))) as (m' & E' & L' & C); [lia|lia|lia|rewrite (li_len _ _ L); reflexivity|].
  change (8 * 1) with 8 in E'. rewrite E'. cbn [obind]. eexists. split; [reflexivity|]. pose proof (li_free _ _ L) as F.
  assert (C' : forall pos, 0 <= pos < 8192 -> at_ m' pos = u8 (at_ (bits (filter_ l)) pos + count 8192 pos x)).
  { intros pos Hp. specialize (C pos Hp). rewrite Z.mul_1_r in C. rewrite C. rewrite iter_inc by (apply (li_cells _ _ L); auto). rewrite Z2Nat.id by apply count_nonneg. reflexivity. }
  split; [|split].
  - constructor; cbn [filter_ max_per_sec size d p bits free_items set_free set_bits].
    + apply L.
    + apply L.
    + apply L.
    + rewrite L'. reflexivity.
    + intros k Hk. rewrite C' by auto. apply Z.mod_pos_bound. lia.
    + rewrite u16_id by lia. lia.
    + reflexivity.
  - cbn. rewrite u16_id by lia. lia.
  - exact C'.
Qed.
Lemma shiftr1 v : Z.shiftr v 1 = v / 2. Proof. rewrite Z.shiftr_div_pow2 by lia. reflexivity. Qed.
Lemma period_ok mx l : LInv mx l -> exists l', period l = Ok l' /\ LInv mx l' /\ (forall k, 0 <= k < 8192 -> at_ (bits (filter_ l')) k = at_ (bits (filter_ l)) k / 2).
Proof.
  intros L. unfold period, counting_clear_r. rewrite (li_size _ _ L), (li_d _ _ L), (li_len _ _ L), (li_p _ _ L). change (Z.shiftr (8192 * 8) 3) with 8192. change (Z.shiftr (8192 * 8) 4) with 4096.
  cbn [Z.ltb Z.compare Pos.compare Pos.compare_cont obind]. eexists. split; [reflexivity|].
  assert (C : forall k, 0 <= k < 8192 -> (if (0 <=? k) && (k <? 8192) then Z.shiftr (at_ (bits (filter_ l)) k) 1 else at_ (bits (filter_ l)) k) = at_ (bits (filter_ l)) k / 2).
  { intros k Hk. replace ((0 <=? k) && (k <? 8192)) with true by lia. apply shiftr1. }
  split; [|exact C]. constructor; cbn [filter_ max_per_sec size d p bits free_items set_free set_bits len at_].
  - apply L.
  - apply L.
  - apply L.
  - reflexivity.
  - intros k Hk. rewrite C by auto. pose proof (li_cells _ _ L k Hk). split; [apply Z.div_pos; lia|apply Z.div_lt_upper_bound; lia].
  - match goal with |- context [4096 <? ?f] => set (ff := f) end. assert (0 <= ff) by (apply Z.mod_pos_bound; lia). destruct (Z.ltb_spec 4096 ff); [rewrite u16_id|]; lia.
  - apply L.
Qed.
Lemma reached_inv c h l : reached c h l -> LInv (limit_of c) l.
Proof.
  intros [_ H]. destruct (l_init c) as (l0 & E0 & I0 & _). rewrite E0 in H. cbn [obind] in H. clear E0. revert l0 I0 H. induction h as [|o h IH]; intros l0 I0 H; cbn [lapply_all] in H; [injection H as <-; auto|].
  destruct o as [x|]; cbn [lapply] in H.
  - destruct (packet_cases _ l0 x I0 (limit_pos c)) as (ct & _ & _ & [[_ E]|[(_ & _ & E)|(_ & _ & l' & E & I' & _)]]); rewrite E in H; cbn [obind snd] in H; [eapply IH; eauto|discriminate|eapply IH; eauto].
  - destruct (period_ok _ l0 I0) as (l' & E & I' & _). rewrite E in H. cbn [obind] in H. eapply IH; eauto.
Qed.

Lemma count_of_cons x y l : count_of x (y :: l) = (if key_eqb x y then 1 else 0) + count_of x l.
Proof. unfold count_of. cbn [filter]. destruct (key_eqb x y); cbn [length]; lia. Qed.
Lemma count_of_nonneg x l : 0 <= count_of x l. Proof. unfold count_of. lia. Qed.
Lemma count_of_hits n x l w : In w x -> count_of x l <= hits n (w mod n) l.
Proof.
  intros Hw. induction l as [|y l IH]; [cbn; lia|]. rewrite count_of_cons, hits_cons. pose proof (count_nonneg n (w mod n) y). destruct (key_eqb x y) eqn:E; [|lia].
  apply key_eqb_eq in E. subst y. assert (0 < count n (w mod n) x); [|lia]. apply count_pos. apply existsb_exists. exists w. split; auto. apply Z.eqb_refl.
Qed.
Lemma limit_run mx base ps : 0 < mx -> Forall wf_key ps -> (forall pos, 0 <= pos < 8192 -> 0 <= base pos) -> forall acc l acc' l', LInv mx l ->
  (forall pos, 0 <= pos < 8192 -> at_ (bits (filter_ l)) pos = base pos + hits 8192 pos acc) ->
  (forall pos, 0 <= pos < 8192 -> base pos + hits 8192 pos acc + hits 8192 pos ps <= 254) ->
  (forall x, wf_key x -> count_of x acc <= mx + 1) -> packets l acc ps = Ok (acc', l') -> forall x, wf_key x -> count_of x acc' <= mx + 1.
Proof.
  intros Hm. induction ps as [|y ps IH]; intros Wf B0 acc l acc' l' L C B N E x Hx; cbn [packets] in E; [injection E as <- <-; auto|]. inversion Wf as [|? ? Wy Wps]; subst.
  destruct (packet_cases mx l y L Hm) as (c & Ec & Bc & [[_ E1]|[(_ & _ & E1)|(Hc & Hf & l1 & E1 & L1 & F1 & C1)]]); rewrite E1 in E; cbn [obind] in E; [| discriminate |].
  - apply (IH Wps B0 acc l acc' l' L C); auto. intros pos Hp. specialize (B pos Hp). rewrite hits_cons in B. pose proof (count_nonneg 8192 pos y). lia.
  - apply (IH Wps B0 (y :: acc) l1 acc' l' L1); auto.
    + intros pos Hp. rewrite C1, C, hits_cons by auto. specialize (B pos Hp). specialize (B0 pos Hp). rewrite hits_cons in B. pose proof (count_nonneg 8192 pos y). pose proof (hits_nonneg 8192 pos ps). pose proof (hits_nonneg 8192 pos acc). rewrite u8_id by lia. lia.
    + intros pos Hp. specialize (B pos Hp). rewrite hits_cons in B |- *. lia.
    + intros z Hz. rewrite count_of_cons. destruct (key_eqb z y) eqn:Ez; [|specialize (N z Hz); lia]. apply key_eqb_eq in Ez. subst z.
      destruct (Z.le_gt_cases (count_of y acc) 0) as [|P]; [lia|].
      destruct (load_ge mx l (count_of y acc) L ltac:(lia) y 0 c) as [_ G]; [|exact Ec|].
      * intros w Hw. assert (R : 0 <= w mod 8192 < 8192) by (apply Z.mod_pos_bound; lia). rewrite C by auto. specialize (B _ R). specialize (B0 _ R). pose proof (count_of_hits 8192 y acc w Hw). pose proof (hits_nonneg 8192 (w mod 8192) (y :: ps)). lia.
      * destruct G as [->|G]; [destruct Hx as [_ _]; destruct Hz as [Q _]; discriminate|lia].
Qed.

(** filling up the limiter with unlimited traffic *)
Lemma burst mx ps : 254 <= mx -> forall acc l, LInv mx l -> free_items (filter_ l) < Z.of_nat (length ps) -> packets l acc ps = Abort.
Proof.
  intros Hm. induction ps as [|y ps IH]; intros acc l L F; [cbn [length] in F; pose proof (li_free _ _ L); lia|]. cbn [packets].
  destruct (packet_cases mx l y L ltac:(lia)) as (c & Ec & Bc & [[? E1]|[(_ & _ & E1)|(Hc & Hf & l1 & E1 & L1 & F1 & C1)]]); [lia|rewrite E1; reflexivity|rewrite E1]. cbn [obind].
  apply IH; auto. cbn [length] in F. lia.
Qed.
Lemma no_zero_sum {A} (f : A -> Z) l : (forall x, In x l -> f x = 0) -> fold_left (fun c x => if c <? f x then f x else c) l 0 = 0.
Proof. induction l as [|x l IH]; intros H; cbn [fold_left]; auto. rewrite (H x) by (left; auto). cbn. apply IH. intros y Hy. apply H. right. auto. Qed.
Lemma count_distinct n x pos : NoDup (map (fun w => w mod n) x) -> count n pos x <= 1.
Proof.
  induction x as [|w x IH]; intros H; [cbn; lia|]. cbn [map] in H. inversion H as [|? ? H1 H2]; subst. rewrite count_cons. destruct (Z.eqb_spec (w mod n) pos) as [<-|]; [|specialize (IH H2); lia].
  assert (count n (w mod n) x = 0); [|lia]. pose proof (count_nonneg n (w mod n) x). pose proof (count_pos n (w mod n) x) as CP. destruct (existsb (fun v => v mod n =? w mod n) x) eqn:E; [|assert (~ 0 < count n (w mod n) x) by (rewrite CP; discriminate); lia].
  exfalso. apply H1. apply existsb_exists in E as (v & Hv & Ev). apply in_map_iff. exists v. split; auto. lia.
Qed.
Lemma slow_period mx l x : LInv mx l -> 0 < mx -> wf_key x -> NoDup (map (fun w => w mod 8192) x) -> (forall k, 0 <= k < 8192 -> at_ (bits (filter_ l)) k = 0) ->
  (free_items (filter_ l) = 0 /\ packet l x = Abort) \/
  exists l1 l2, packet l x = Ok (true, l1) /\ period l1 = Ok l2 /\ LInv mx l2 /\ (forall k, 0 <= k < 8192 -> at_ (bits (filter_ l2)) k = 0) /\ free_items (filter_ l2) = free_items (filter_ l) - 1.
Proof.
  intros L Hm Wx ND Zc. destruct (packet_cases mx l x L Hm) as (c & Ec & Bc & [[Q E1]|[(_ & F0 & E1)|(Hc & Hf & l1 & E1 & L1 & F1 & C1)]]); [|left; auto|].
  - exfalso. destruct (load_le mx l L x 0 c Ec ltac:(lia)) as (w & Hw & Ew). rewrite Zc in Ew by (apply Z.mod_pos_bound; lia). lia.
  - right. destruct (period_ok mx l1 L1) as (l2 & E2 & L2 & C2). exists l1, l2. split; auto. split; auto. split; auto.
    assert (One : forall k, 0 <= k < 8192 -> 0 <= at_ (bits (filter_ l1)) k <= 1).
    { intros k Hk. rewrite C1, Zc by auto. pose proof (count_nonneg 8192 k x). pose proof (count_distinct 8192 x k ND). rewrite u8_id by lia. lia. }
    split.
    + intros k Hk. rewrite C2 by auto. specialize (One k Hk). apply Z.div_small. lia.
    + unfold period, counting_clear_r in E2. rewrite (li_size _ _ L1), (li_d _ _ L1), (li_len _ _ L1), (li_p _ _ L1) in E2. change (Z.shiftr (8192 * 8) 3) with 8192 in E2. change (Z.shiftr (8192 * 8) 4) with 4096 in E2.
      cbn [Z.ltb Z.compare Pos.compare Pos.compare_cont obind] in E2. apply (f_equal (fun o => match o with Ok v => free_items (filter_ v) | _ => 0 end)) in E2. cbn [filter_ free_items set_free set_bits at_] in E2. rewrite <- E2. clear E2.
      rewrite no_zero_sum. 2:{ intros k Hk. apply zrange_in in Hk. replace ((0 <=? k) && (k <? 8192)) with true by lia. rewrite shiftr1. apply Z.div_small. specialize (One k Hk). lia. }
      rewrite Z.mul_0_l. change (u32 (Z.shiftl (u32 0) 1)) with 0. rewrite Z.add_0_r, F1. pose proof (li_free _ _ L). rewrite u16_id by lia. destruct (Z.ltb_spec 4096 (free_items (filter_ l) - 1)); lia.
Qed.
Lemma slow_traffic mx x n : 0 < mx -> wf_key x -> NoDup (map (fun w => w mod 8192) x) -> forall l, LInv mx l -> (forall k, 0 <= k < 8192 -> at_ (bits (filter_ l)) k = 0) ->
  free_items (filter_ l) < Z.of_nat n -> one_per_period l x n = Abort.
Proof.
  intros Hm Wx ND. induction n as [|n IH]; intros l L Zc F; [pose proof (li_free _ _ L); lia|]. cbn [one_per_period].
  destruct (slow_period mx l x L Hm Wx ND Zc) as [[_ ->]|(l1 & l2 & E1 & E2 & L2 & Z2 & F2)]; [reflexivity|]. rewrite E1. cbn [obind]. rewrite E2. cbn [obind]. apply IH; auto. lia.
Qed.
