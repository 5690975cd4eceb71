(** The code's table follows a machine that keeps, for every bucket, the list of subjects with age and sources. *)
From Verif Require Import Base Dhkey_Model Dhkey_Proofs Bloom_Model Bloom_Spec Bloom_Std Bloom_Decay Bloom_Count Bloom_Nbf Pheromone_Model Pheromone_Spec Pheromone_Filter Pheromone_Proofs.
From Coq Require Import Permutation.

Record aent := mkA { asub : key; aage : Z; asend : list detail; arecv : list detail }.
Definition used (e : aent) : Z := Z.of_nat (length (asend e)) + Z.of_nat (length (arecv e)).
Definition aupd (me s : key) (a0 : Z) (r : bool) (src : key) (now : Z) (e : aent) : aent :=
  if same_b (asub e) s
  then mkA (asub e) (Z.min 255 (aage e + a0)) (if r then asend e else upd_list me (asend e) src now) (if r then upd_list me (arecv e) src now else arecv e)
  else e.
Definition anew (s : key) (a0 : Z) (r : bool) (src : key) (now : Z) : aent :=
  mkA s a0 (if r then [] else [mkDetail src now]) (if r then [mkDetail src now] else []).
Definition ainhale (me s : key) (a0 : Z) (r : bool) (src : key) (now : Z) (l : list aent) : list aent :=
  if existsb (fun e => same_b (asub e) s) l then map (aupd me s a0 r src now) l else l ++ [anew s a0 r src now].
Definition athin (l : list detail) : list detail := if Z.of_nat (length l) >? 1 then remove_oldest l else l.
Definition alive (e : aent) : bool := negb ((faded (aage e) =? 0) || (used e mod 32 =? 0)).
Definition aexhale (l : list aent) : list aent :=
  map (fun e => mkA (asub e) (faded (aage e)) (athin (asend e)) (athin (arecv e))) (filter alive l).

Record AE (K : list key) (now i : Z) (e : aent) : Prop := {
  ae_wf : wf_key (asub e); ae_reg : regular (asub e); ae_bucket : bucket_of (asub e) = i; ae_age : 0 < aage e <= 255;
  ae_send : Lst K now (asend e); ae_recv : Lst K now (arecv e); ae_used : 1 <= used e }.
Definition distinct (l : list aent) : Prop := ForallOrdPairs (fun x y => ~ same_cells (asub x) (asub y)) l.
Record Rel (e : aent) (p : pher) : Prop := { rl_ent : Ent (asub e) (aage e) (used e) (filt p); rl_send : send p = asend e; rl_recv : recv p = arecv e }.
Record Cover (t : bloom) (l : list aent) : Prop := { cv_top : Top t; cv_age : forall e c, In e l -> In c (cells_of (asub e)) -> aage e <= look t c }.

Lemma f2_len {A B} (R : A -> B -> Prop) l l' : Forall2 R l l' -> length l = length l'.
Proof. induction 1; cbn; auto. Qed.
Lemma filter_len {A} (f : A -> bool) l : (length (filter f l) <= length l)%nat.
Proof. induction l as [|x l IH]; cbn; [lia|]. destruct (f x); cbn; lia. Qed.
Section Sim.
  Variables (me : key) (K : list key).
  Hypotheses (Wme : wf_key me) (WK : Forall wf_key K) (NZ : Forall (fun k => k <> zero_key) K) (AK : apart me K).
  Lemma refresh_ok s a u b s0 a0 p l k now other : Ent s a u b -> Ent s0 a0 1 p -> same_cells s s0 -> Lst K now l -> In k K ->
    u = Z.of_nat (length l) + other -> 0 <= other <= 19 -> 
    exists b', refresh me b p l k now = Ok (b', upd_list me l k now) /\ Ent s (Z.min 255 (a + a0)) (Z.of_nat (length (upd_list me l k now)) + other) b'.
  Proof.
    intros En Ep S HL HK Eu Ho. unfold refresh, upd_list. destruct (remove_lst me K WK AK now l k HL HK) as (r & l1 & E & HL1 & NI & Len & _ & _). rewrite E. cbn [snd].
    destruct (insert_lst me K Wme WK AK now l1 k HL1 HK NI) as (ND & Ln & _ & _). cbn zeta in *. set (l2 := insert_dhkey me l1 k now) in *. pose proof (ls_len _ _ _ HL) as LL. pose proof (ls_len _ _ _ HL1) as LL1.
    assert (D1 : exists b1, (if r then nbf_count_dec b else Ok b) = Ok b1 /\ Ent s a (Z.of_nat (length l1) + other) b1).
    { destruct r.
      - destruct (ent_count_dec s a u b En) as (b1 & E1 & En1); [lia|]. exists b1. split; auto. replace (Z.of_nat (length l1) + other) with (u - 1) by lia. auto.
      - exists b. split; auto. replace (Z.of_nat (length l1) + other) with u by lia. auto. }
    destruct D1 as (b1 & E1 & En1). rewrite E1. cbn [obind]. change MAX_NEXTHOP_KEYS with 19.
    destruct (Z.gtb_spec (Z.of_nat (length l2)) 19) as [G|G].
    - destruct (ent_count_dec s a _ b1 En1) as (b2 & E2 & En2); [lia|]. rewrite E2. cbn [obind].
      destruct (ent_union s a _ b2 s0 a0 1 p En2 Ep S) as (b3 & E3 & En3); [lia|]. rewrite E3. cbn [obind]. exists b3. split; auto.
      destruct l2 as [|y l2'] eqn:El2; [cbn in G; lia|]. destruct (oldest_spec y l2') as (a1 & x & a2 & Eq & Er & _). rewrite Er.
      assert (Lr : length (a1 ++ a2) = length l2'). { assert (Q : length (y :: l2') = length (a1 ++ x :: a2)) by (rewrite Eq; auto). rewrite app_length in *. cbn [length] in Q. lia. }
      cbn [length] in *. replace (Z.of_nat (length (a1 ++ a2)) + other) with (Z.of_nat (length l1) + other - 1 + 1) by lia. exact En3.
    - destruct (ent_union s a _ b1 s0 a0 1 p En1 Ep S) as (b3 & E3 & En3); [lia|]. cbn [obind]. rewrite E3. cbn [obind]. exists b3. split; auto.
      replace (Z.of_nat (length l2) + other) with (Z.of_nat (length l1) + other + 1) by lia. exact En3.
  Qed.
  Lemma not_zero k : In k K -> np_dhkey_equal k zero_key = false.
  Proof.
    intros H. rewrite Forall_forall in NZ, WK. specialize (NZ k H). specialize (WK k H). destruct (np_dhkey_equal k zero_key) eqn:E; auto.
    apply equal_spec in E; [congruence|auto|]. split; [reflexivity|]. unfold zero_key, is_word. repeat constructor; lia.
  Qed.
  (** the pheromone as it reaches _np_pheromone_inhale *)
  Definition as_scent (p : bloom) (s src : key) (r : bool) : scent :=
    mkScent None (Some p) (position s r) (if r then zero_key else src) (if r then src else zero_key).
  Lemma position_sign (s : key) (r : bool) : wf_key s -> (if r then 0 < position s r else position s r < 0) /\ Z.abs (position s r) - 1 = bucket_of s /\ 0 <= bucket_of s < 257.
  Proof.
    intros _. unfold position, bucket_of, BUCKETS. pose proof (Z.mod_pos_bound (nth 0 s 0) 257 ltac:(lia)). destruct r; lia.
  Qed.
  Lemma inhale_one_ok now i e ph p s a0 r src : AE K now i e -> Rel e ph -> wf_key s -> regular s -> 0 < a0 -> Ent s a0 1 p -> In src K ->
    exists ph', inhale_one me (as_scent p s src r) p now ph = Ok (same_b (asub e) s, ph') /\ Rel (aupd me s a0 r src now e) ph'.
  Proof.
    intros A R W Rg H0 Ep HK. pose proof (ae_used _ _ _ _ A) as HU. pose proof (ls_len _ _ _ (ae_send _ _ _ _ A)) as LS. pose proof (ls_len _ _ _ (ae_recv _ _ _ _ A)) as LR.
    unfold inhale_one. rewrite (ent_test (asub e) (aage e) (used e) (filt ph) s a0 1 p (ae_wf _ _ _ _ A) W (rl_ent _ _ R) Ep (proj1 (ae_age _ _ _ _ A)) H0 HU). cbn [obind].
    unfold aupd. destruct (same_b (asub e) s) eqn:S; [|exists ph; split; auto]. apply same_b_iff in S. destruct (position_sign s r W) as (P & _ & _).
    cbn [as_scent pos sender receiver]. destruct r.
    - replace (position s true <? 0) with false by lia. replace (0 <? position s true) with true by lia. cbn [andb]. rewrite (not_zero src HK). cbn [negb]. rewrite (rl_recv _ _ R).
      destruct (refresh_ok (asub e) (aage e) (used e) (filt ph) s a0 p (arecv e) src now (Z.of_nat (length (asend e))) (rl_ent _ _ R) Ep S (ae_recv _ _ _ _ A) HK) as (b' & E & En); [unfold used; lia|lia|].
      rewrite E. cbn [obind]. eexists. split; [reflexivity|]. constructor; cbn [filt send recv asub aage asend arecv]; auto using rl_send.
      unfold used. cbn [asend arecv]. rewrite (Z.add_comm (Z.of_nat (length (asend e)))). exact En.
    - replace (position s false <? 0) with true by lia. cbn [andb]. rewrite (not_zero src HK). cbn [negb]. rewrite (rl_send _ _ R).
      destruct (refresh_ok (asub e) (aage e) (used e) (filt ph) s a0 p (asend e) src now (Z.of_nat (length (arecv e))) (rl_ent _ _ R) Ep S (ae_send _ _ _ _ A) HK) as (b' & E & En); [unfold used; lia|lia|].
      rewrite E. cbn [obind]. eexists. split; [reflexivity|]. constructor; cbn [filt send recv asub aage asend arecv]; auto using rl_recv.
  Qed.
  Lemma upd_ae now i e s a0 r src : AE K now i e -> In src K -> 0 < a0 -> AE K (now + 1) i (aupd me s a0 r src now e).
  Proof.
    intros A HK H0. pose proof (ae_age _ _ _ _ A) as HA. pose proof (ae_used _ _ _ _ A) as HU.
    pose proof (lst_weaken K now K (now + 1) _ (ae_send _ _ _ _ A) (incl_refl _) ltac:(lia)) as LS. pose proof (lst_weaken K now K (now + 1) _ (ae_recv _ _ _ _ A) (incl_refl _) ltac:(lia)) as LR.
    unfold aupd. destruct (same_b (asub e) s).
    - destruct (upd_lst me K Wme WK AK now (asend e) src (ae_send _ _ _ _ A) HK) as (L1 & _ & _ & _ & P1 & _). destruct (upd_lst me K Wme WK AK now (arecv e) src (ae_recv _ _ _ _ A) HK) as (L2 & _ & _ & _ & P2 & _).
      destruct A. unfold used in HU. destruct r; constructor; cbn [asub aage asend arecv]; auto; try lia; unfold used; cbn [asend arecv]; lia.
    - destruct A. constructor; auto.
  Qed.
  (** the loop over the entries *)
  Lemma into_top_ok t b s a u : Top t -> free_items t = 64 -> Ent s a u b ->
    exists t', into_top t b = Ok t' /\ Top t' /\ free_items t' = 64 /\ (forall c, valid c -> look t' c = Z.min 255 (look t c + mark s a c) /\ lookc t' c = u8 (lookc t c + mark s u c)).
  Proof.
    intros T F En. unfold into_top. rewrite F, (en_free _ _ _ _ En). pose proof (en_u _ _ _ _ En). replace (64 + (64 - u) <? 64) with false by lia.
    destruct (top_union t s a u b T En F) as (t' & E & T1 & _ & _ & Q). rewrite E. cbn [obind]. eexists. split; [reflexivity|]. split; auto.
  Qed.
  Definition total (l : list aent) : Z := fold_right (fun e n => used e + n) 0 l.
  Lemma inhale_all_ok now i p s a0 r src : wf_key s -> regular s -> 0 < a0 -> Ent s a0 1 p -> In src K ->
    forall l ps, Forall2 Rel l ps -> Forall (AE K now i) l -> forall t, Top t -> free_items t = 64 ->
    exists t' ps', inhale_all me (as_scent p s src r) p now t ps = Ok (existsb (fun e => same_b (asub e) s) l, t', ps') /\
      Forall2 Rel (map (aupd me s a0 r src now) l) ps' /\ Top t' /\ free_items t' = 64 /\
      (forall c, valid c -> look t c <= look t' c) /\
      (forall e c, In e (map (aupd me s a0 r src now) l) -> In c (cells_of (asub e)) -> aage e <= look t' c) /\
      (forall c B, valid c -> lookc t c <= B -> B + total (map (aupd me s a0 r src now) l) <= 255 -> lookc t c <= lookc t' c <= B + total (map (aupd me s a0 r src now) l) /\
         forall e, In e (map (aupd me s a0 r src now) l) -> In c (cells_of (asub e)) -> 1 <= lookc t' c).
  Proof.
    intros W Rg H0 Ep HK. induction 1 as [|e ph l ps R F IH]; intros FA t T Ft; cbn [inhale_all map existsb].
    - exists t, []. split; auto. split; [constructor|]. split; [auto|]. split; [auto|]. split; [intros; lia|]. split; [intros ? ? []|]. intros c B V H1 H2. cbn in *. split; [lia|]. intros ? [].
    - inversion FA as [|? ? A FA']; subst. destruct (inhale_one_ok now i e ph p s a0 r src A R W Rg H0 Ep HK) as (ph' & E & R'). rewrite E. cbn [obind].
      pose proof (upd_ae now i e s a0 r src A HK H0) as A'. set (e' := aupd me s a0 r src now e) in *.
      destruct (into_top_ok t (filt ph') _ _ _ T Ft (rl_ent _ _ R')) as (t1 & E1 & T1 & F1 & Q). rewrite E1. cbn [obind].
      destruct (IH FA' t1 T1 F1) as (t2 & ps2 & E2 & FR & T2 & F2 & Mono & Age & Cnt). rewrite E2. cbn [obind]. exists t2, (ph' :: ps2). split; [reflexivity|]. split; [constructor; auto|]. split; [auto|]. split; [auto|].
      pose proof (ae_age _ _ _ _ A') as HA. pose proof (ae_used _ _ _ _ A') as HU.
      assert (M1 : forall c, valid c -> look t c <= look t1 c).
      { intros c V. destruct (Q c V) as [Q1 _]. pose proof (tp_a _ T c V). rewrite Q1. unfold mark. destruct (has (asub e') c); lia. }
      split; [intros c V; specialize (M1 c V); specialize (Mono c V); lia|]. split.
      + intros x c [<-|Hx] Hc; [|eapply Age; eauto]. assert (V : valid c) by (apply (valid_in (asub e')); auto; apply A'). specialize (Mono c V). destruct (Q c V) as [Q1 _]. pose proof (tp_a _ T c V).
        unfold mark in Q1. apply has_in in Hc. rewrite Hc in Q1. lia.
      + intros c B V H1 H2. cbn [map total fold_right] in *. fold (total (map (aupd me s a0 r src now) l)) in *. fold e' in H2 |- *. destruct (Q c V) as [_ Q2]. pose proof (tp_c _ T c V) as TC.
        assert (TP : 0 <= total (map (aupd me s a0 r src now) l)).
        { clear. induction l as [|x l IH]; cbn [map total fold_right]; [lia|]. fold (total (map (aupd me s a0 r src now) l)). unfold used. lia. }
        assert (M : 0 <= mark (asub e') (used e') c <= used e') by (unfold mark; destruct (has (asub e') c); lia).
        rewrite u8_id in Q2 by lia. destruct (Cnt c (B + used e') V ltac:(lia) ltac:(lia)) as [C1 C2]. split; [lia|]. intros x [<-|Hx] Hc; [|eapply C2; eauto].
        unfold mark in Q2. apply has_in in Hc. rewrite Hc in Q2. lia.
  Qed.

  (** * The whole table *)
  Record Inv (now : Z) (ab : Z -> list aent) (tb : table) : Prop := {
    iv_me : Pheromone_Model.me tb = me; iv_free : held tb = false;
    iv_rel : forall i, match buckets tb i with None => ab i = [] | Some b => Forall2 Rel (ab i) (ents b) /\ Cover (top b) (ab i) end;
    iv_ae : forall i, Forall (AE K now i) (ab i);
    iv_distinct : forall i, distinct (ab i);
    iv_len : forall i, (length (ab i) <= 31)%nat }.
  (** the union filter of bucket [i] shows all its subjects *)
  Definition Vis (ab : Z -> list aent) (tb : table) (i : Z) : Prop :=
    match buckets tb i with None => True | Some b => forall e c, In e (ab i) -> In c (cells_of (asub e)) -> 1 <= lookc (top b) c end.
  Definition set_ab (ab : Z -> list aent) (i : Z) (l : list aent) (j : Z) : list aent := if j =? i then l else ab j.
  Lemma inv_new b : Inv b (fun _ => []) (new_table me).
  Proof. constructor; auto; intros i; cbn; auto; [constructor|lia]. Qed.
  Lemma ae_later now now' i e : AE K now i e -> now <= now' -> AE K now' i e.
  Proof. intros [] H. constructor; auto; eapply lst_weaken; eauto using incl_refl. Qed.
  Lemma inv_later now now' ab tb : Inv now ab tb -> now <= now' -> Inv now' ab tb.
  Proof. intros [] H. constructor; auto. intros i. eapply Forall_impl; [|apply (iv_ae0 i)]. intros e A. eapply ae_later; eauto. Qed.
  Lemma ordpairs_map {A} (R : A -> A -> Prop) f l : (forall x y, R (f x) (f y) <-> R x y) -> ForallOrdPairs R l -> ForallOrdPairs R (map f l).
  Proof.
    intros H. induction 1 as [|x l F _ IH]; cbn [map]; constructor; auto. rewrite Forall_forall in F |- *. intros y Hy. apply in_map_iff in Hy. destruct Hy as (z & <- & Hz). apply H; auto.
  Qed.
  Lemma ordpairs_snoc {A} (R : A -> A -> Prop) l x : ForallOrdPairs R l -> Forall (fun y => R y x) l -> ForallOrdPairs R (l ++ [x]).
  Proof.
    induction 1 as [|y l F _ IH]; intros H; cbn [app]; [constructor; constructor|]. inversion H; subst. constructor; [apply Forall_app; auto|auto].
  Qed.
  Lemma ordpairs_filter {A} (R : A -> A -> Prop) f l : ForallOrdPairs R l -> ForallOrdPairs R (filter f l).
  Proof.
    induction 1 as [|y l F _ IH]; cbn [filter]; [constructor|]. destruct (f y); auto. constructor; auto. rewrite Forall_forall in F |- *. intros z Hz. apply F. apply filter_In in Hz. apply Hz.
  Qed.
  Lemma aupd_sub s a0 r src now e : asub (aupd me s a0 r src now e) = asub e.
  Proof. unfold aupd. destruct (same_b (asub e) s); reflexivity. Qed.
  Lemma distinct_inhale s a0 r src now l : distinct l -> distinct (ainhale me s a0 r src now l).
  Proof.
    intros D. unfold ainhale. destruct (existsb (fun e => same_b (asub e) s) l) eqn:E.
    - apply ordpairs_map; auto. intros x y. rewrite !aupd_sub. reflexivity.
    - apply ordpairs_snoc; auto. rewrite Forall_forall. intros y Hy S. cbn [asub anew] in S.
      assert (existsb (fun e => same_b (asub e) s) l = true) by (apply existsb_exists; exists y; split; auto; apply same_b_iff; auto). congruence.
  Qed.
  Lemma anew_ae now s a0 r src : wf_key s -> regular s -> 0 < a0 <= 255 -> In src K -> AE K (now + 1) (bucket_of s) (anew s a0 r src now).
  Proof.
    intros W Rg Ha HK. assert (L1 : Lst K (now + 1) [mkDetail src now]).
    { constructor; cbn; [constructor; auto; constructor|lia|intros y [<-|[]]; auto|constructor; cbn; auto; lia]. }
    assert (L0 : Lst K (now + 1) []) by (constructor; cbn; [constructor|lia|intros y []|constructor]).
    destruct r; constructor; cbn [asub aage asend arecv anew]; auto; unfold used; cbn; lia.
  Qed.
  Lemma total_app l l' : total (l ++ l') = total l + total l'.
  Proof. induction l as [|x l IH]; [reflexivity|]. cbn [app total fold_right]. fold (total (l ++ l')). fold (total l). lia. Qed.
  Lemma total_nonneg l : 0 <= total l.
  Proof. induction l as [|x l IH]; cbn [total fold_right]; [lia|]. fold (total l). unfold used. lia. Qed.
  Lemma inhale_ok now ab tb p s a0 r src : Inv now ab tb -> wf_key s -> regular s -> 0 < a0 -> Ent s a0 1 p -> In src K ->
    let i := bucket_of s in
    let l' := ainhale me s a0 r src now (ab i) in
    ((length (ab i) < 31)%nat -> exists tb', inhale tb (as_scent p s src r) now = Ok (tb', true) /\ Inv (now + 1) (set_ab ab i l') tb' /\
        (total l' <= 255 -> Vis (set_ab ab i l') tb' i) /\ (forall j, j <> i -> buckets tb' j = buckets tb j) /\
        exists b, buckets tb' i = Some b /\ (forall e c, In e l' -> In c (cells_of (asub e)) -> aage e <= look (top b) c)) /\
    (length (ab i) = 31%nat -> exists tb', inhale tb (as_scent p s src r) now = Ok (tb', false) /\ held tb' = true).
  Proof.
    intros I W Rg H0 Ep HK i l'. destruct (position_sign s r W) as (P & Pi & Pr). fold i in Pi, Pr.
    unfold inhale. cbn [as_scent subject subj_bloom obind pos]. replace (position s r =? 0) with false by (destruct r; lia). cbn zeta. rewrite Pi. unfold BUCKETS. replace (i <? 257) with true by lia. cbn [negb]. rewrite (iv_free _ _ _ I), (iv_me _ _ _ I).
    set (b := match buckets tb i with Some b => b | None => mkBucket nbf_create [] end).
    assert (FR : Forall2 Rel (ab i) (ents b)). { pose proof (iv_rel _ _ _ I i) as R. unfold b. destruct (buckets tb i); [apply R|rewrite R; constructor]. }
    destruct (inhale_all_ok now i p s a0 r src W Rg H0 Ep HK (ab i) (ents b) FR (iv_ae _ _ _ I i) nbf_create top_new eq_refl) as (t' & ps' & E & FR' & T' & Ft & _ & Age & Cnt).
    change (nbf_clear (top b)) with nbf_create. fold (as_scent p s src r) in *. rewrite E. cbn [obind].
    assert (Lp : length ps' = length (ab i)) by (rewrite <- (f2_len _ _ _ FR'), map_length; auto). rewrite Lp. unfold MAX_PHEROMONES. split; intros HL.
    - replace (1 + Z.of_nat (length (ab i)) <? 32) with true by lia. cbn [negb]. unfold l', ainhale. pose proof (en_a _ _ _ _ Ep) as HA.
      assert (AEU : Forall (AE K (now + 1) i) (map (aupd me s a0 r src now) (ab i))).
      { pose proof (iv_ae _ _ _ I i) as FA. rewrite Forall_forall in FA |- *. intros x Hx. apply in_map_iff in Hx. destruct Hx as (e & <- & He). apply upd_ae; auto. }
      assert (Other : forall l'' bk, Forall2 Rel l'' (ents bk) -> Cover (top bk) l'' -> Forall (AE K (now + 1) i) l'' -> distinct l'' -> (length l'' <= 31)%nat -> Inv (now + 1) (set_ab ab i l'') (put_bucket tb i bk)).
      { intros l'' bk R1 R2 R3 R4 R5. constructor; cbn [put_bucket Pheromone_Model.me held buckets].
        - apply I.
        - apply I.
        - intros j. unfold set_ab. destruct (j =? i); [auto|apply (iv_rel _ _ _ I j)].
        - intros j. unfold set_ab. destruct (Z.eqb_spec j i) as [Ej|Ej]; [subst j; auto|]. eapply Forall_impl; [|apply (iv_ae _ _ _ I j)]. intros x Hx. eapply ae_later; [exact Hx|lia].
        - intros j. unfold set_ab. destruct (j =? i); auto. apply I.
        - intros j. unfold set_ab. destruct (j =? i); auto. apply I. }
      assert (V0 : forall c, valid c -> lookc nbf_create c <= 0) by (intros c V; unfold lookc; rewrite (cnt_ns _ _ _ _ ns_new V); lia).
      pose proof (distinct_inhale s a0 r src now (ab i) (iv_distinct _ _ _ I i)) as DI. unfold ainhale in DI.
      destruct (existsb (fun e => same_b (asub e) s) (ab i)) eqn:Ex.
      + eexists. split; [reflexivity|]. split; [|split; [|split; [|eexists; split; [cbn [put_bucket buckets]; rewrite Z.eqb_refl; reflexivity|exact Age]]]].
        * apply Other; auto; [constructor; auto|rewrite map_length; lia].
        * intros Tot. unfold Vis. cbn [put_bucket buckets]. rewrite Z.eqb_refl. unfold set_ab. rewrite Z.eqb_refl. cbn [top]. intros e c He Hc.
          assert (V : valid c). { rewrite Forall_forall in AEU. apply (valid_in (asub e)); auto. apply (AEU e He). }
          destruct (Cnt c 0 V (V0 c V) ltac:(lia)) as [_ C]. eapply C; eauto.
        * intros j Hj. cbn [put_bucket buckets]. replace (j =? i) with false by lia. reflexivity.
      + pose proof (en_u _ _ _ _ Ep). rewrite (en_free _ _ _ _ Ep), Ft. replace (64 + (64 - 1) <? 64) with false by lia.
        destruct (top_union t' s a0 1 p T' Ep Ft) as (t2 & E2 & _ & T2 & _ & Q). rewrite E2. cbn [obind].
        assert (En2 : exists b', nbf_union nbf_create p = Ok b' /\ Ent s a0 1 b').
        { assert (E0 : Ent s 0 0 nbf_create). { constructor; [|reflexivity|lia|lia]. apply (ns_ext _ _ _ _ _ ns_new); intros c _; unfold mark; destruct (has s c); reflexivity. }
          destruct (ent_union s 0 0 nbf_create s a0 1 p E0 Ep (same_refl s)) as (b' & Eb & Enb); [lia|]. exists b'. split; auto. replace (Z.min 255 (0 + a0)) with a0 in Enb by lia. exact Enb. }
        destruct En2 as (b' & Eb & Enb). rewrite Eb. cbn [obind].
        assert (NoUpd : map (aupd me s a0 r src now) (ab i) = ab i).
        { clear - Ex. induction (ab i) as [|x l IH]; [reflexivity|]. cbn [existsb] in Ex. apply orb_false_iff in Ex. destruct Ex as [E1 E2]. cbn [map]. rewrite IH by auto. unfold aupd. rewrite E1. reflexivity. }
        rewrite NoUpd in *.
        match goal with |- exists tb', Ok (put_bucket tb i (mkBucket t2 (ps' ++ [?e])), true) = _ /\ _ => set (ph := e) end.
        assert (Rn : Rel (anew s a0 r src now) ph).
        { unfold ph, anew. destruct r; [replace (0 <? position s true) with true by lia|replace (0 <? position s false) with false by lia]; cbn [sender receiver]; constructor; cbn [asub aage asend arecv filt send recv]; auto. }
        assert (An : AE K (now + 1) i (anew s a0 r src now)) by (apply anew_ae; auto; lia).
        assert (Age2 : forall e c, In e (ab i ++ [anew s a0 r src now]) -> In c (cells_of (asub e)) -> aage e <= look t2 c).
        { intros e c He Hc. apply in_app_or in He. destruct He as [He|[<-|[]]].
          - assert (V : valid c). { rewrite Forall_forall in AEU. apply (valid_in (asub e)); auto. apply (AEU e He). } destruct (Q c V) as [Q1 _]. specialize (Age e c He Hc). pose proof (tp_a _ T' c V).
            rewrite Forall_forall in AEU. pose proof (ae_age _ _ _ _ (AEU e He)). unfold mark in Q1. destruct (has s c); lia.
          - cbn [anew asub aage] in *. assert (V : valid c) by (apply (valid_in s); auto). destruct (Q c V) as [Q1 _]. pose proof (tp_a _ T' c V). unfold mark in Q1. apply has_in in Hc. rewrite Hc in Q1. lia. }
        eexists. split; [reflexivity|]. split; [|split; [|split; [|eexists; split; [cbn [put_bucket buckets]; rewrite Z.eqb_refl; reflexivity|exact Age2]]]].
        * apply Other; cbn [ents top]; auto.
          -- apply Forall2_app; auto.
          -- constructor; auto.
          -- apply Forall_app; auto.
          -- rewrite app_length. cbn. lia.
        * intros Tot. unfold Vis. cbn [put_bucket buckets]. rewrite Z.eqb_refl. unfold set_ab. rewrite Z.eqb_refl. cbn [top]. intros e c He Hc.
          rewrite total_app in Tot. cbn [total fold_right] in Tot. assert (U1 : used (anew s a0 r src now) = 1) by (destruct r; reflexivity). rewrite U1 in Tot.
          assert (V : valid c). { apply in_app_or in He. destruct He as [He|[<-|[]]]; [rewrite Forall_forall in AEU; apply (valid_in (asub e)); auto; apply (AEU e He)|apply (valid_in s); auto]. }
          destruct (Cnt c 0 V (V0 c V) ltac:(lia)) as [C1 C2]. destruct (Q c V) as [_ Q2]. assert (L0 : 0 <= lookc t' c) by (pose proof (tp_c _ T' c V); lia).
          rewrite u8_id in Q2 by (unfold mark; destruct (has s c); lia). apply in_app_or in He. destruct He as [He|[<-|[]]].
          -- specialize (C2 e He Hc). unfold mark in Q2. destruct (has s c); lia.
          -- cbn [anew asub] in Hc. apply has_in in Hc. unfold mark in Q2. rewrite Hc in Q2. lia.
        * intros j Hj. cbn [put_bucket buckets]. replace (j =? i) with false by lia. reflexivity.
    - rewrite HL. cbn. eexists. split; reflexivity.
  Qed.
  (** * Decay *)
  Lemma athin_lst now l : Lst K now l -> Lst K now (athin l) /\ incl (map peer (athin l)) (map peer l) /\ Z.of_nat (length (athin l)) = (if Z.of_nat (length l) >? 1 then Z.of_nat (length l) - 1 else Z.of_nat (length l)).
  Proof.
    intros HL. unfold athin. destruct (Z.gtb_spec (Z.of_nat (length l)) 1) as [G|G]; [|split; [auto|split; [apply incl_refl|lia]]].
    destruct l as [|y l]; [cbn in G; lia|]. destruct (oldest_spec y l) as (a & x & b & Eq & Er & _). rewrite Er, Eq in *. split; [apply (lst_sub K now a x b HL)|]. split.
    - intros z Hz. rewrite map_app in *. cbn [map]. apply in_app_or in Hz. apply in_or_app. destruct Hz; [left|right; right]; auto.
    - rewrite !app_length. cbn [length]. lia.
  Qed.
  Lemma thin_ok now s a u b l other : Ent s a u b -> Lst K now l -> u = Z.of_nat (length l) + other -> 0 <= other ->
    exists b', thin b l = Ok (b', athin l) /\ Ent s a (Z.of_nat (length (athin l)) + other) b'.
  Proof.
    intros En HL Eu Ho. destruct (athin_lst now l HL) as (_ & _ & Len). unfold thin, athin in *. destruct (Z.gtb_spec (Z.of_nat (length l)) 1) as [G|G].
    - destruct (ent_count_dec s a u b En) as (b' & E & En'); [lia|]. rewrite E. cbn [obind]. exists b'. split; auto. rewrite Len. replace (Z.of_nat (length l) - 1 + other) with (u - 1) by lia. auto.
    - exists b. split; auto. rewrite <- Eu. auto.
  Qed.
  Definition decayed (e : aent) : aent := mkA (asub e) (faded (aage e)) (athin (asend e)) (athin (arecv e)).
  Lemma decayed_ae now i e : AE K now i e -> alive e = true -> AE K now i (decayed e).
  Proof.
    intros A H. unfold alive in H. apply negb_true_iff, orb_false_iff in H. destruct H as [H1 H2]. pose proof (faded_range (aage e) ltac:(pose proof (ae_age _ _ _ _ A); lia)).
    destruct (athin_lst now _ (ae_send _ _ _ _ A)) as (L1 & _ & N1). destruct (athin_lst now _ (ae_recv _ _ _ _ A)) as (L2 & _ & N2). pose proof (ae_used _ _ _ _ A) as U. destruct A. constructor; cbn [decayed asub aage asend arecv]; auto; [lia|].
    unfold used in *. cbn [asend arecv decayed]. destruct (Z.gtb_spec (Z.of_nat (length (asend e))) 1), (Z.gtb_spec (Z.of_nat (length (arecv e))) 1); lia.
  Qed.
  Lemma exhale_all_ok now i t : Top t -> forall l ps, Forall2 Rel l ps -> Forall (AE K now i) l -> (forall e c, In e l -> In c (cells_of (asub e)) -> faded (aage e) <= look t c) -> forall n,
    (n <= 30 \/ forallb alive l = true -> exists ps', exhale_all t n ps = Ok ps' /\ Forall2 Rel (aexhale l) ps') /\
    (n = 31 -> forallb alive l = false -> exhale_all t n ps = UB).
  Proof.
    intros T. induction 1 as [|e ph l ps R F IH]; intros FA HA n; cbn [exhale_all].
    - split; [intros _; exists []; split; [auto|constructor]|cbn; discriminate].
    - inversion FA as [|? ? A FA']; subst. specialize (IH FA' (fun x c Hx => HA x c (or_intror Hx))).
      destruct (ent_age_dec _ _ _ _ (rl_ent _ _ R)) as (b & E & En). rewrite E. cbn [obind].
      destruct (ent_intersect_age t _ _ _ _ _ _ (ae_wf _ _ _ _ A) (ae_reg _ _ _ _ A) (tp_ns _ T) En (fun c Hc => HA e c (or_introl eq_refl) Hc)) as (r & Er & Zr). rewrite Er. cbn [obind forallb]. unfold aexhale. cbn [filter].
      assert (Al : alive e = negb (r =? 0)). { unfold alive. apply eq_true_iff_eq. rewrite !negb_true_iff, orb_false_iff. destruct (Z.eqb_spec r 0), (Z.eqb_spec (faded (aage e)) 0), (Z.eqb_spec (used e mod 32) 0); tauto. }
      rewrite Al. destruct (Z.eqb_spec r 0) as [Z0|Z0]; cbn [negb andb].
      + unfold MAX_PHEROMONES. split.
        * intros [Hn|Hn]; [|discriminate]. replace (1 + n <? 32) with true by lia. apply (proj1 (IH (n - 1))). left. lia.
        * intros -> _. reflexivity.
      + pose proof (ls_len _ _ _ (ae_send _ _ _ _ A)). pose proof (ls_len _ _ _ (ae_recv _ _ _ _ A)).
        rewrite (rl_recv _ _ R), (rl_send _ _ R). destruct (thin_ok now _ _ _ _ (arecv e) (Z.of_nat (length (asend e))) En (ae_recv _ _ _ _ A)) as (b1 & E1 & En1); [unfold used; lia|lia|]. rewrite E1. cbn [obind].
        destruct (thin_ok now _ _ _ _ (asend e) (Z.of_nat (length (athin (arecv e)))) En1 (ae_send _ _ _ _ A)) as (b2 & E2 & En2); [lia|lia|]. rewrite E2. cbn [obind]. split.
        * intros Hn. destruct (proj1 (IH n) Hn) as (ps' & E3 & FR). rewrite E3. cbn [obind]. eexists. split; [reflexivity|]. cbn [map]. constructor; auto. constructor; auto.
        * intros -> Hn. rewrite (proj2 (IH 31) eq_refl Hn). reflexivity.
  Qed.
  Lemma aexhale_map l : aexhale l = map decayed (filter alive l). Proof. reflexivity. Qed.
  Lemma exhale_ok now ab tb i : Inv now ab tb -> (length (ab i) <= 30)%nat \/ forallb alive (ab i) = true ->
    exists tb', exhale tb i = Ok tb' /\ Inv now (set_ab ab i (aexhale (ab i))) tb' /\ (Vis ab tb i -> Vis (set_ab ab i (aexhale (ab i))) tb' i) /\ (forall j, j <> i -> buckets tb' j = buckets tb j).
  Proof.
    intros I H. unfold exhale. rewrite (iv_free _ _ _ I). pose proof (iv_rel _ _ _ I i) as R. destruct (buckets tb i) as [b|] eqn:Eb.
    - destruct R as [FR CV]. destruct (top_age_dec _ (cv_top _ _ CV)) as (t & Et & Tt & Q). rewrite Et. cbn [obind].
      assert (FA := iv_ae _ _ _ I i).
      assert (HA : forall e c, In e (ab i) -> In c (cells_of (asub e)) -> faded (aage e) <= look t c).
      { intros e c He Hc. rewrite Forall_forall in FA. assert (V : valid c) by (apply (valid_in (asub e)); auto; apply (FA e He)). destruct (Q c V) as [Q1 _]. rewrite Q1. apply faded_mono; [eapply cv_age; eauto|]. apply (tp_a _ (cv_top _ _ CV) c V). }
      destruct (exhale_all_ok now i t Tt (ab i) (ents b) FR FA HA (Z.of_nat (length (ents b)))) as [Ok1 _].
      destruct Ok1 as (ps' & E & FR'); [rewrite <- (f2_len _ _ _ FR); destruct H; [left; lia|right; auto]|]. rewrite E. cbn [obind]. eexists. split; [reflexivity|]. split; [|split].
      + assert (Hin : forall e, In e (aexhale (ab i)) -> exists e0, In e0 (ab i) /\ alive e0 = true /\ e = decayed e0).
        { intros e He. rewrite aexhale_map in He. apply in_map_iff in He. destruct He as (e0 & <- & He). apply filter_In in He. exists e0. tauto. }
        constructor; cbn [put_bucket Pheromone_Model.me held buckets]; try apply I.
        * intros j. unfold set_ab. destruct (j =? i); [|apply (iv_rel _ _ _ I j)]. cbn [ents top]. split; auto. constructor; auto. intros e c He Hc. destruct (Hin e He) as (e0 & H0 & _ & ->). cbn [decayed asub aage] in *. apply (HA e0); auto.
        * intros j. unfold set_ab. destruct (Z.eqb_spec j i) as [Ej|Ej]; [|apply I]. subst j. rewrite Forall_forall in FA |- *. intros e He. destruct (Hin e He) as (e0 & H0 & H1 & ->). apply decayed_ae; auto.
        * intros j. unfold set_ab. destruct (j =? i); [|apply I]. rewrite aexhale_map. apply ordpairs_map; [intros x y; reflexivity|]. apply ordpairs_filter, I.
        * intros j. unfold set_ab. destruct (j =? i); [|apply I]. rewrite aexhale_map, map_length. pose proof (filter_len alive (ab i)). pose proof (iv_len _ _ _ I i). lia.
      + unfold Vis. cbn [put_bucket buckets]. rewrite Z.eqb_refl, Eb. unfold set_ab. rewrite Z.eqb_refl. cbn [top]. intros V e c He Hc. rewrite aexhale_map in He. apply in_map_iff in He. destruct He as (e0 & <- & He). apply filter_In in He. cbn [decayed asub] in Hc.
        rewrite Forall_forall in FA. assert (Vc : valid c) by (apply (valid_in (asub e0)); auto; apply (FA e0); tauto). destruct (Q c Vc) as [_ Q2]. rewrite Q2. apply (V e0); tauto.
      + intros j Hj. cbn [put_bucket buckets]. replace (j =? i) with false by lia. reflexivity.
    - exists tb. split; auto. split; [|split; [unfold Vis; rewrite Eb; auto|auto]]. assert (X : forall j, set_ab ab i (aexhale (ab i)) j = ab j) by (intros j; unfold set_ab; destruct (Z.eqb_spec j i) as [->|]; [rewrite R|]; reflexivity).
      constructor; try apply I; intros j; rewrite X; apply I.
  Qed.
  Lemma exhale_ub now ab tb i : Inv now ab tb -> length (ab i) = 31%nat -> forallb alive (ab i) = false -> exhale tb i = UB.
  Proof.
    intros I H Hd. unfold exhale. rewrite (iv_free _ _ _ I). pose proof (iv_rel _ _ _ I i) as R. destruct (buckets tb i) as [b|] eqn:Eb; [|rewrite R in H; discriminate].
    destruct R as [FR CV]. destruct (top_age_dec _ (cv_top _ _ CV)) as (t & Et & Tt & Q). rewrite Et. cbn [obind]. assert (FA := iv_ae _ _ _ I i).
    assert (HA : forall e c, In e (ab i) -> In c (cells_of (asub e)) -> faded (aage e) <= look t c).
    { intros e c He Hc. rewrite Forall_forall in FA. assert (V : valid c) by (apply (valid_in (asub e)); auto; apply (FA e He)). destruct (Q c V) as [Q1 _]. rewrite Q1. apply faded_mono; [eapply cv_age; eauto|]. apply (tp_a _ (cv_top _ _ CV) c V). }
    rewrite (proj2 (exhale_all_ok now i t Tt (ab i) (ents b) FR FA HA (Z.of_nat (length (ents b))))); auto. rewrite <- (f2_len _ _ _ FR). lia.
  Qed.
  (** * What is found *)
  Definition found (l : list aent) (k : key) (fs fr : bool) : list key :=
    flat_map (fun e => if same_b k (asub e) then map peer (if fr then arecv e else if fs then asend e else []) else []) l.
  Lemma collect_ok now i k fs fr : wf_key k -> regular k -> forall l ps, Forall2 Rel l ps -> Forall (AE K now i) l -> collect ps k fs fr = Ok (found l k fs fr).
  Proof.
    intros W Rg. induction 1 as [|e ph l ps R F IH]; intros FA; [reflexivity|]. inversion FA as [|? ? A FA']; subst. cbn [collect].
    rewrite (ent_check (asub e) (aage e) (used e) (filt ph) k) by (first [exact W|exact Rg|apply A|apply R|pose proof (ae_used _ _ _ _ A); lia]). cbn [obind]. rewrite (IH FA'). cbn [obind]. unfold found. cbn [flat_map]. rewrite (rl_send _ _ R), (rl_recv _ _ R). destruct (same_b k (asub e)); reflexivity.
  Qed.
  (** the answer is always the list of the entry, or nothing *)
  Lemma snuffle_any now ab tb k prob fs fr : Inv now ab tb -> wf_key k -> regular k ->
    exists ks pr, snuffle tb k prob fs fr = Ok (ks, pr) /\ (ks = [] \/ ks = found (ab (bucket_of k)) k fs fr).
  Proof.
    intros I W Rg. unfold snuffle. rewrite (iv_free _ _ _ I). fold (bucket_of k). unfold BUCKETS. change (nth 0 k 0 mod 257) with (bucket_of k). pose proof (iv_rel _ _ _ I (bucket_of k)) as R. destruct (buckets tb (bucket_of k)) as [b|]; [|eauto].
    destruct R as [FR CV]. rewrite top_check by (auto; apply CV). cbn [obind]. destruct (forallb _ (cells_of k)) eqn:Fb; [|eauto].
    assert (Hh : exists p, nbf_heuristic (top b) k = Ok p).
    { assert (exists p, nbf_heuristic (top b) k = Ok p /\ 0 <= p) as (p & E & _); [|eauto]. pose proof (cv_top _ _ CV) as T. unfold nbf_heuristic. rewrite addrs_cells by apply T.
      destruct (heur_ok (top b) (cells_of k) 0 T (cells_valid k W)) with (x := 256) as (p & E & P & _); [|lia|lia|eauto]. intros c Hc. rewrite forallb_forall in Fb. specialize (Fb c Hc).
      pose proof (tp_a _ T c (valid_in k c W Hc)). pose proof (tp_c _ T c (valid_in k c W Hc)). lia. }
    destruct Hh as (p & Ep). rewrite Ep. cbn [obind]. destruct (prob <=? p); [|eauto]. rewrite (collect_ok now (bucket_of k) k fs fr W Rg _ _ FR (iv_ae _ _ _ I _)). cbn [obind]. eauto.
  Qed.
  Lemma snuffle_ok now ab tb k prob fs fr e : Inv now ab tb -> wf_key k -> regular k -> Vis ab tb (bucket_of k) -> In e (ab (bucket_of k)) -> same_cells k (asub e) -> prob <= aage e ->
    exists pr, snuffle tb k prob fs fr = Ok (found (ab (bucket_of k)) k fs fr, pr) /\ aage e <= pr.
  Proof.
    intros I W Rg V He Sm Hp. unfold snuffle. rewrite (iv_free _ _ _ I). unfold BUCKETS. change (nth 0 k 0 mod 257) with (bucket_of k). pose proof (iv_rel _ _ _ I (bucket_of k)) as R. unfold Vis in V. destruct (buckets tb (bucket_of k)) as [b|]; [|rewrite R in He; destruct He].
    destruct R as [FR CV]. assert (FA := iv_ae _ _ _ I (bucket_of k)). assert (A : AE K now (bucket_of k) e) by (rewrite Forall_forall in FA; auto). pose proof (ae_age _ _ _ _ A).
    destruct (top_found (top b) k (aage e) (cv_top _ _ CV) W) as (E1 & p & E2 & Hpp); [lia|lia| |].
    - intros c Hc. apply Sm in Hc. split; [eapply cv_age; eauto|]. specialize (V e c He Hc). lia.
    - rewrite E1. cbn [obind]. rewrite E2. cbn [obind]. replace (prob <=? p) with true by lia. rewrite (collect_ok now (bucket_of k) k fs fr W Rg _ _ FR FA). cbn [obind]. exists p. split; auto.
  Qed.
End Sim.
