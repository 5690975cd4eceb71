(** Facts about histories used by the properties. *)
From Verif Require Import Base Dhkey_Model Dhkey_Proofs Bloom_Model Bloom_Spec Bloom_Std Bloom_Decay Bloom_Count Bloom_Nbf Pheromone_Model Pheromone_Spec Pheromone_Filter Pheromone_Proofs Pheromone_Sim Pheromone_Hist.

(** * Bounds for any use *)
Definition bounded (tb : table) : Prop := forall i b, buckets tb i = Some b ->
  (length (ents b) <= 31)%nat /\ Forall (fun e => Z.of_nat (length (send e)) <= 19 /\ Z.of_nat (length (recv e)) <= 19) (ents b).
Definition small (e : pher) : Prop := Z.of_nat (length (send e)) <= 19 /\ Z.of_nat (length (recv e)) <= 19.
Lemma insert_len me l k now : (length (insert_dhkey me l k now) <= S (length l))%nat.
Proof. unfold insert_dhkey. destruct (_ <? 0); [rewrite app_length; cbn; lia|]. destruct (0 <? _); cbn; lia. Qed.
Lemma remove_len l k : (length (snd (remove_dhkey l k)) <= length l)%nat.
Proof. destruct (remove_spec l k) as [(a & x & b & -> & _ & _ & E)|[_ E]]; rewrite E; cbn [snd]; [rewrite !app_length; cbn; lia|lia]. Qed.
Lemma oldest_len l : (length (remove_oldest l) <= length l - 1)%nat.
Proof. destruct l as [|y l]; [cbn; lia|]. destruct (oldest_spec y l) as (a & x & b & Eq & Er & _). rewrite Er, Eq, !app_length. cbn. lia. Qed.
Lemma refresh_len me b p l k now b' l' : Z.of_nat (length l) <= 19 -> refresh me b p l k now = Ok (b', l') -> Z.of_nat (length l') <= 19.
Proof.
  intros H. unfold refresh. pose proof (remove_len l k) as R. destruct (remove_dhkey l k) as [rm l1]. cbn [snd] in R. destruct (if rm then nbf_count_dec b else Ok b) as [b1| |]; cbn [obind]; try discriminate.
  pose proof (insert_len me l1 k now) as I. set (l2 := insert_dhkey me l1 k now) in *. change MAX_NEXTHOP_KEYS with 19. destruct (Z.gtb_spec (Z.of_nat (length l2)) 19) as [G|G].
  - destruct (nbf_count_dec b1) as [b2| |]; cbn [obind]; try discriminate. destruct (nbf_union b2 p); cbn [obind]; try discriminate. intros [= <- <-]. pose proof (oldest_len l2). lia.
  - cbn [obind]. destruct (nbf_union b1 p); cbn [obind]; try discriminate. intros [= <- <-]. lia.
Qed.
Lemma inhale_one_small me s p now e u e' : small e -> inhale_one me s p now e = Ok (u, e') -> small e'.
Proof.
  intros [S R]. unfold inhale_one. destruct (nbf_intersect_test _ _) as [b| |]; cbn [obind]; try discriminate. destruct b; [|intros [= <- <-]; split; auto].
  destruct (_ && _); [|destruct (_ && _); [|intros [= <- <-]; split; auto]].
  - destruct (refresh _ _ _ _ _ _) as [[b l]| |] eqn:E; cbn [obind]; try discriminate. intros [= <- <-]. split; cbn [send recv]; [eapply refresh_len; [|exact E]; auto|auto].
  - destruct (refresh _ _ _ _ _ _) as [[b l]| |] eqn:E; cbn [obind]; try discriminate. intros [= <- <-]. split; cbn [send recv]; [auto|eapply refresh_len; [|exact E]; auto].
Qed.
Lemma inhale_all_small me s p now l : forall t u t' l', Forall small l -> inhale_all me s p now t l = Ok (u, t', l') -> Forall small l' /\ length l' = length l.
Proof.
  induction l as [|e l IH]; intros t u t' l' F; cbn [inhale_all]; [intros [= <- <- <-]; auto|]. inversion F; subst. destruct (inhale_one _ _ _ _ _) as [[u1 e1]| |] eqn:E; cbn [obind]; try discriminate.
  destruct (into_top _ _) as [t1| |]; cbn [obind]; try discriminate. destruct (inhale_all me s p now t1 l) as [[[u2 t2] l2]| |] eqn:E2; cbn [obind]; try discriminate. intros [= <- <- <-].
  destruct (IH _ _ _ _ ltac:(eassumption) E2). split; [constructor; auto; eapply inhale_one_small; eauto|cbn; auto].
Qed.
Lemma put_bounded tb i b : bounded tb -> (length (ents b) <= 31)%nat -> Forall small (ents b) -> bounded (put_bucket tb i b).
Proof. intros B L F j b' E. cbn [put_bucket buckets] in E. destruct (j =? i); [injection E as <-; auto|eapply B; eauto]. Qed.
Lemma inhale_bounded tb s now tb' r : bounded tb -> inhale tb s now = Ok (tb', r) -> bounded tb'.
Proof.
  intros B. unfold inhale. destruct (match subject s with Some k => _ | None => _ end) as [[p|]| |]; try discriminate; [|intros [= <- <-]; auto]. destruct (pos s =? 0); [discriminate|]. cbn zeta. destruct (negb _); [discriminate|]. destruct (held tb); [discriminate|].
  set (i := Z.abs (pos s) - 1). set (b := match buckets tb i with Some b => b | None => mkBucket nbf_create [] end).
  assert (Bb : (length (ents b) <= 31)%nat /\ Forall small (ents b)) by (unfold b; destruct (buckets tb i) eqn:E; [apply (B i); auto|cbn; split; [lia|constructor]]). destruct Bb as [Lb Sb].
  destruct (inhale_all _ _ _ _ _ _) as [[[u t] l]| |] eqn:E; cbn [obind]; try discriminate. destruct (inhale_all_small _ _ _ _ _ _ _ _ _ Sb E) as [Sl Ll].
  unfold MAX_PHEROMONES. destruct (Z.ltb_spec (1 + Z.of_nat (length l)) 32) as [G|G]; cbn [negb].
  - destruct u; [intros [= <- <-]; apply put_bounded; auto; cbn; lia|]. destruct (_ <? 64); [discriminate|]. destruct (nbf_union t p) as [t'| |]; cbn [obind]; try discriminate. destruct (_ <? 64); [discriminate|]. destruct (nbf_union nbf_create p) as [b'| |]; cbn [obind]; try discriminate.
    intros [= <- <-]. apply put_bounded; auto; cbn [ents]; [rewrite app_length; cbn; lia|]. apply Forall_app. split; auto. constructor; auto. destruct (0 <? pos s); split; cbn; lia.
  - intros [= <- <-]. assert (P : bounded (put_bucket tb i (mkBucket t l))) by (apply put_bounded; auto; cbn; lia). exact P.
Qed.
Lemma athin_len l : (length (athin l) <= length l)%nat.
Proof. unfold athin. destruct (_ >? 1); [pose proof (oldest_len l); lia|lia]. Qed.
Lemma thin_len b l b' l' : thin b l = Ok (b', l') -> (length l' <= length l)%nat.
Proof. unfold thin. destruct (_ >? 1); [destruct (nbf_count_dec b); cbn [obind]; try discriminate; intros [= <- <-]; pose proof (oldest_len l); lia|intros [= <- <-]; lia]. Qed.
Lemma exhale_all_small t l : forall n l', Forall small l -> exhale_all t n l = Ok l' -> Forall small l' /\ (length l' <= length l)%nat.
Proof.
  induction l as [|e l IH]; intros n l' F; cbn [exhale_all]; [intros [= <-]; auto|]. inversion F as [|? ? [S R] F']; subst. destruct (nbf_age_dec (filt e)) as [b| |]; cbn [obind]; try discriminate. destruct (nbf_intersect_age t b) as [a| |]; cbn [obind]; try discriminate.
  destruct (a =? 0).
  - destruct (1 + n <? MAX_PHEROMONES); [|discriminate]. intros E. destruct (IH _ _ F' E). split; auto. cbn. lia.
  - destruct (thin b (recv e)) as [[b1 rl]| |] eqn:E1; cbn [obind]; try discriminate. destruct (thin b1 (send e)) as [[b2 sl]| |] eqn:E2; cbn [obind]; try discriminate. destruct (exhale_all t n l) as [r| |] eqn:E3; cbn [obind]; try discriminate.
    intros [= <-]. destruct (IH _ _ F' E3). apply thin_len in E1. apply thin_len in E2. split; [constructor; auto; split; cbn; lia|cbn; lia].
Qed.
Lemma exhale_bounded tb i tb' : bounded tb -> exhale tb i = Ok tb' -> bounded tb'.
Proof.
  intros B. unfold exhale. destruct (held tb); [discriminate|]. destruct (buckets tb i) as [b|] eqn:Eb; [|intros [= <-]; auto]. destruct (nbf_age_dec (top b)) as [t| |]; cbn [obind]; try discriminate.
  destruct (exhale_all t _ (ents b)) as [l| |] eqn:E; cbn [obind]; try discriminate. intros [= <-]. destruct (B i b Eb) as [L S]. destruct (exhale_all_small _ _ _ _ S E). apply put_bounded; auto; cbn; lia.
Qed.
Lemma any_bounded h : forall tb tb', bounded tb -> any_run tb h = Ok tb' -> bounded tb'.
Proof.
  induction h as [|[s now|i] h IH]; intros tb tb' B; cbn [any_run]; [intros [= <-]; auto| |].
  - destruct (inhale tb s now) as [[t r]| |] eqn:E; cbn [obind]; try discriminate. apply IH. eapply inhale_bounded; eauto.
  - destruct (exhale tb i) as [t| |] eqn:E; cbn [obind]; try discriminate. apply IH. eapply exhale_bounded; eauto.
Qed.

(** * Good histories *)
Lemma subjects_app h h' : subjects (h ++ h') = subjects h ++ subjects h'. Proof. apply flat_map_app. Qed.
Lemma sources_app h h' : sources (h ++ h') = sources h ++ sources h'. Proof. apply flat_map_app. Qed.
Lemma times_app h h' : times (h ++ h') = times h ++ times h'. Proof. apply flat_map_app. Qed.
Definition start (h : list call) : Z := match times h with t :: _ => t | [] => 0 end.
Lemma timed_from h : forall b, (forall t, hd_error (times h) = Some t -> b <= t) -> increasing (times h) -> timed b h.
Proof.
  assert (N : forall now h, match times h with [] => True | y :: _ => now < y end -> forall t, hd_error (times h) = Some t -> now + 1 <= t) by (intros now h' H t E; destruct (times h'); [discriminate|injection E as <-; lia]).
  induction h as [|c h IH]; intros b H I; cbn [timed]; [auto|]. destruct c as [s src r k now|s src r now|i]; unfold at_or_after, next; cbn [smells]; unfold times in H, I; cbn [flat_map app] in H, I; fold (times h) in H, I.
  - cbn [increasing hd_error] in *. destruct I as [I1 I2]. split; [apply H; auto|]. apply IH; [apply N; exact I1|exact I2].
  - cbn [increasing hd_error] in *. destruct I as [I1 I2]. split; [apply H; auto|]. apply IH; [apply N; exact I1|exact I2].
  - split; auto.
Qed.
Lemma good_timed me h : good me h -> timed (start h) h.
Proof. intros G. apply timed_from; [|apply G]. unfold start. intros t E. destruct (times h); [discriminate|]. injection E as ->. lia. Qed.
Lemma fine_incl K K' h : incl K K' -> Forall (fine K) h -> Forall (fine K') h.
Proof. intros I F. eapply Forall_impl; [|exact F]. intros c. unfold fine. destruct (smells c) as [[[[[s src] r] k] now]|]; [|auto]. intros (A & B & C). auto. Qed.
Lemma fine_all h : Forall (fun s => wf_key s /\ regular s) (subjects h) -> Forall (fine (sources h)) h.
Proof.
  induction h as [|c h IH]; intros F; [constructor|]. change (subjects (c :: h)) with (subjects ([c] ++ h)) in F. rewrite subjects_app in F. apply Forall_app in F. destruct F as [F1 F2].
  change (sources (c :: h)) with (sources ([c] ++ h)). rewrite sources_app. constructor; [|eapply fine_incl; [|apply IH; auto]; intros x Hx; apply in_or_app; auto].
  destruct c as [s src r k now|s src r now|i]; unfold fine; cbn [smells]; auto; cbn [subjects flat_map app] in F1; inversion F1 as [|? ? [Q1 Q2] ?]; subst; cbn [sources flat_map app]; (split; [exact Q1|split; [exact Q2|left; reflexivity]]).
Qed.
Record ctx (me : key) (K : list key) : Prop := { cx_me : wf_key me; cx_wf : Forall wf_key K; cx_nz : Forall (fun k => k <> zero_key) K; cx_apart : apart me K }.
Lemma good_ctx me h : good me h -> ctx me (sources h) /\ Forall (fine (sources h)) h /\ timed (start h) h.
Proof.
  intros G. pose proof (g_sources _ _ G) as S. split; [|split; [apply fine_all, G|eapply good_timed; eauto]]. constructor; [apply G| | |apply G].
  - eapply Forall_impl; [|exact S]. cbn. tauto.
  - eapply Forall_impl; [|exact S]. cbn. unfold zero_key. change [0; 0; 0; 0; 0; 0; 0; 0] with (repeat 0 8). tauto.
Qed.
Lemma good_inv me h tb : good me h -> run (new_table me) h = Ok tb -> held tb = false ->
  Inv me (sources h) (last_time (start h) h) (arun me (fun _ => []) h) tb.
Proof.
  intros G E H. destruct (good_ctx me h G) as ([W1 W2 W3 W4] & F & T). eapply run_inv; eauto. apply inv_new.
Qed.
(** the state in the middle of a good history, with the sources of the whole *)
Lemma good_mid me h h' tb : good me (h ++ h') -> run (new_table me) h = Ok tb -> held tb = false ->
  Inv me (sources (h ++ h')) (last_time (start (h ++ h')) h) (arun me (fun _ => []) h) tb /\ ctx me (sources (h ++ h')) /\ Forall (fine (sources (h ++ h'))) h' /\ timed (last_time (start (h ++ h')) h) h'.
Proof.
  intros G E H. destruct (good_ctx me _ G) as (C & F & T). apply Forall_app in F. destruct F as [F1 F2]. apply timed_app in T. destruct T as [T1 T2]. destruct C as [W1 W2 W3 W4].
  split; [eapply run_inv; eauto; apply inv_new|]. split; [constructor; auto|]. auto.
Qed.
Lemma kept_total b l : Forall2 Rel l (ents b) -> kept_in b = total l.
Proof.
  unfold kept_in. induction 1 as [|e p l ps R F IH]; [reflexivity|]. cbn [fold_right total]. fold (total l). rewrite IH. unfold kept, used. rewrite (rl_send _ _ R), (rl_recv _ _ R). reflexivity.
Qed.
Lemma kept_of b l e : Forall2 Rel l (ents b) -> In e l -> exists p, In p (ents b) /\ kept p = used e.
Proof.
  induction 1 as [|e' p l' ps R F IH]; intros H; [destruct H|]. destruct H as [->|H]; [exists p; split; [left; auto|unfold kept, used; rewrite (rl_send _ _ R), (rl_recv _ _ R); reflexivity]|]. destruct (IH H) as (q & Hq & Q). exists q. split; [right; auto|auto].
Qed.
(** every stored source was smelled *)
Definition backed (h : list call) (ab : Z -> list aent) : Prop :=
  forall i e, In e (ab i) -> (exists s, In s (subjects h) /\ asub e = s) /\
    (forall k, In k (map peer (asend e)) -> exists s', same_cells s' (asub e) /\ smelled h s' k false) /\
    (forall k, In k (map peer (arecv e)) -> exists s', same_cells s' (asub e) /\ smelled h s' k true).
Lemma smelled_in c h s src r k now : smells c = Some (s, src, r, k, now) -> In c h -> smelled h s src r /\ In s (subjects h).
Proof.
  intros E H. destruct c as [s0 src0 r0 k0 n0|s0 src0 r0 n0|i]; cbn [smells] in E; [injection E as <- <- <- <- <-|injection E as <- <- <- <- <-|discriminate].
  - split; [exists k0, n0; auto|]. unfold subjects. apply in_flat_map. eexists. split; [exact H|left; auto].
  - split; [exists 0%nat, n0; auto|]. unfold subjects. apply in_flat_map. eexists. split; [exact H|left; auto].
Qed.
Section Back.
  Variables (me : key) (K : list key).
  Hypothesis C : ctx me K.
  Lemma backed_step h b ab tb c : Inv me K b ab tb -> fine K c -> at_or_after b c -> In c h -> backed h ab -> backed h (astep me ab c).
  Proof.
    intros I F T Hc B.
    assert (Gen : forall s src r a0 k now, smells c = Some (s, src, r, k, now) -> backed h (set_ab ab (bucket_of s) (ainhale me s a0 r src now (ab (bucket_of s))))).
    { intros s src r a0 k now E i e He. unfold fine, at_or_after in *. rewrite E in *. destruct F as (W & Rg & HK). destruct (smelled_in _ _ _ _ _ _ _ E Hc) as [Sm Su]. unfold set_ab in He. destruct (Z.eqb_spec i (bucket_of s)) as [Ei|Ei]; [|apply (B i e He)].
      subst i. apply in_ainhale in He. destruct He as [(e0 & H0 & ->)|[-> _]].
      - destruct (B _ e0 H0) as (B1 & B2 & B3). rewrite aupd_sub. pose proof (iv_ae _ _ _ _ _ I (bucket_of s)) as FA. rewrite Forall_forall in FA. pose proof (ae_later K b now _ _ (FA e0 H0) T) as A.
        unfold aupd. destruct (same_b (asub e0) s) eqn:S; [|auto]. apply same_b_iff in S. cbn [asub asend arecv]. split; [exact B1|].
        destruct C as [C1 C2 C3 C4]. destruct (upd_lst me K C1 C2 C4 now _ src (ae_send _ _ _ _ A) HK) as (_ & _ & I1 & _). destruct (upd_lst me K C1 C2 C4 now _ src (ae_recv _ _ _ _ A) HK) as (_ & _ & I2 & _).
        destruct r; (split; [|]); intros x Hx; try (apply B2; exact Hx); try (apply B3; exact Hx).
        + apply I2 in Hx. destruct Hx as [<-|Hx]; [|apply B3; exact Hx]. exists s. split; [apply same_sym; auto|auto].
        + apply I1 in Hx. destruct Hx as [<-|Hx]; [|apply B2; exact Hx]. exists s. split; [apply same_sym; auto|auto].
      - cbn [anew asub asend arecv]. split; [exists s; auto|]. destruct r; split; intros x Hx; try destruct Hx as [<-|[]]; try destruct Hx; exists s; split; auto using same_refl. }
    destruct c as [s src r k now|s src r now|i]; cbn [astep].
    - destruct (strength k =? 0); auto. eapply Gen; reflexivity.
    - eapply Gen; reflexivity.
    - intros j e He. unfold set_ab in He. destruct (Z.eqb_spec j i) as [Ej|Ej]; [|apply (B j e He)]. subst j. rewrite aexhale_map in He. apply in_map_iff in He. destruct He as (e0 & <- & He). apply filter_In in He. destruct He as [He _]. destruct (B _ e0 He) as (B1 & B2 & B3).
      pose proof (iv_ae _ _ _ _ _ I i) as FA. rewrite Forall_forall in FA. pose proof (FA e0 He) as A. cbn [decayed asub asend arecv]. split; [auto|].
      destruct (athin_lst K b _ (ae_send _ _ _ _ A)) as (_ & I1 & _). destruct (athin_lst K b _ (ae_recv _ _ _ _ A)) as (_ & I2 & _). split; intros x Hx; [apply B2, I1|apply B3, I2]; auto.
  Qed.
  Lemma backed_run h0 h : forall b ab tb tb', Inv me K b ab tb -> Forall (fine K) h -> timed b h -> incl h h0 -> backed h0 ab -> run tb h = Ok tb' -> held tb' = false -> backed h0 (arun me ab h).
  Proof.
    destruct C as [C1 C2 C3 C4]. induction h as [|c h IH]; intros b ab tb tb' I F T Hi B E H; cbn [run arun timed] in *; [auto|]. inversion F as [|? ? Fc F']; subst. destruct T as [Tc T].
    pose proof (run_room me K C1 C2 C3 C4 (c :: h) b ab tb tb' I F (conj Tc T) E H [] c h eq_refl) as R. cbn [arun] in R.
    destruct (step_room me K C1 C2 C3 C4 b ab tb c I Fc Tc R) as (t1 & ret & E1 & I1 & _). rewrite E1 in E. cbn [obind] in E. eapply IH; eauto; [intros x Hx; apply Hi; right; auto|].
    eapply backed_step; eauto. apply Hi. left. auto.
  Qed.
  (** enough room if there are few subjects *)
  Lemma few_room h : Forall (fine K) h -> (forall l i, NoDup l -> Forall (fun s => bucket_of s = i /\ In s (subjects h)) l -> (length l <= 30)%nat) ->
    forall h1 b ab tb, Inv me K b ab tb -> timed b h1 -> incl h1 h -> backed h ab -> exists tb', run tb h1 = Ok tb' /\ Inv me K (last_time b h1) (arun me ab h1) tb'.
  Proof.
    destruct C as [C1 C2 C3 C4]. intros F Few. induction h1 as [|c h1 IH]; intros b ab tb I T Hi B; cbn [run arun last_time timed] in *; [eauto|]. destruct T as [Tc T].
    assert (Fc : fine K c) by (rewrite Forall_forall in F; apply F, Hi; left; auto).
    assert (L : forall i, (length (ab i) <= 30)%nat).
    { intros i. rewrite <- (map_length asub). apply (Few _ i).
      - pose proof (iv_distinct _ _ _ _ _ I i) as D. clear - D. induction D as [|x l Fx D IH]; cbn [map]; [constructor|]. constructor; auto. rewrite in_map_iff. intros (y & E & Hy). rewrite Forall_forall in Fx. apply (Fx y Hy). rewrite E. apply same_refl.
      - rewrite Forall_forall. intros s Hs. apply in_map_iff in Hs. destruct Hs as (e & <- & He). split; [|destruct (B i e He) as ((s & Hs & ->) & _); auto]. pose proof (iv_ae _ _ _ _ _ I i) as FA. rewrite Forall_forall in FA. apply (FA e He). }
    assert (R : room ab c). { destruct c as [s src r k now|s src r now|i]; cbn [room]; [right; pose proof (L (bucket_of s)); lia|pose proof (L (bucket_of s)); lia|left; apply L]. }
    destruct (step_room me K C1 C2 C3 C4 b ab tb c I Fc Tc R) as (t1 & ret & E1 & I1 & _). rewrite E1. cbn [obind]. apply IH; auto; [intros x Hx; apply Hi; right; auto|]. eapply backed_step; eauto. apply Hi. left. auto.
  Qed.
  (** * A subject is kept while its age lasts *)
  Definition alist (e : aent) (r : bool) : list detail := if r then arecv e else asend e.
  Definition holds (ab : Z -> list aent) (s : key) (r : bool) (a : Z) : Prop :=
    exists e, In e (ab (bucket_of s)) /\ same_cells s (asub e) /\ a <= aage e /\ (1 <= length (alist e r))%nat.
  Lemma holds_inhale b now ab s r a s0 a0 r0 src : Forall (AE K b (bucket_of s)) (ab (bucket_of s)) -> b <= now -> In src K -> 0 <= a0 -> a <= 255 -> holds ab s r a ->
    holds (set_ab ab (bucket_of s0) (ainhale me s0 a0 r0 src now (ab (bucket_of s0)))) s r a.
  Proof.
    intros FA Hb HK Ha0 Ha (e & He & S & Hage & HL). unfold holds, set_ab. destruct (Z.eqb_spec (bucket_of s) (bucket_of s0)) as [Eb|Eb]; [|exists e; auto]. rewrite <- Eb.
    exists (aupd me s0 a0 r0 src now e). split; [apply ainhale_keeps; auto|]. rewrite aupd_sub. split; auto. unfold aupd. destruct (same_b (asub e) s0); [|auto]. cbn [aage]. split; [lia|].
    rewrite Forall_forall in FA. pose proof (ae_later K b now _ _ (FA e He) Hb) as A. destruct C as [C1 C2 C3 C4]. unfold alist in *. cbn [asend arecv]. destruct r, r0; auto.
    - apply (upd_lst me K C1 C2 C4 now _ src (ae_recv _ _ _ _ A) HK).
    - apply (upd_lst me K C1 C2 C4 now _ src (ae_send _ _ _ _ A) HK).
  Qed.
  Lemma used_range b i e : AE K b i e -> 1 <= used e <= 38.
  Proof. intros A. pose proof (ae_used _ _ _ _ A). pose proof (ls_len _ _ _ (ae_send _ _ _ _ A)). pose proof (ls_len _ _ _ (ae_recv _ _ _ _ A)). unfold used in *. lia. Qed.
  Lemma holds_exhale b ab s r a i : Forall (AE K b (bucket_of s)) (ab (bucket_of s)) -> (i = bucket_of s -> 8 < a /\ forall e, In e (ab i) -> used e <> 32) -> holds ab s r a ->
    holds (set_ab ab i (aexhale (ab i))) s r (if i =? bucket_of s then a - 8 else a).
  Proof.
    intros FA Hi (e & He & S & Hage & HL). unfold holds, set_ab. destruct (Z.eqb_spec (bucket_of s) i) as [Eb|Eb].
    2:{ replace (i =? bucket_of s) with false by lia. exists e. auto. }
    subst i. rewrite Z.eqb_refl. destruct (Hi eq_refl) as [H8 H32]. rewrite Forall_forall in FA. pose proof (FA e He) as A. pose proof (used_range _ _ _ A) as U. specialize (H32 e He).
    assert (Fd : aage e - 8 <= faded (aage e) /\ 0 < faded (aage e)) by (unfold faded; destruct (Z.ltb_spec 8 (aage e)); lia).
    exists (decayed e). rewrite aexhale_map. split.
    - apply in_map, filter_In. split; auto. unfold alive. replace (faded (aage e) =? 0) with false by lia. replace (used e mod 32 =? 0) with false; [reflexivity|]. symmetry. apply Z.eqb_neq.
      destruct (Z.lt_ge_cases (used e) 32); [rewrite Z.mod_small; lia|]. replace (used e) with (used e - 32 + 1 * 32) by lia. rewrite Z.mod_add, Z.mod_small; lia.
    - cbn [decayed asub aage]. split; auto. split; [lia|]. destruct (athin_lst K b _ (ae_send _ _ _ _ A)) as (_ & _ & N1). destruct (athin_lst K b _ (ae_recv _ _ _ _ A)) as (_ & _ & N2).
      unfold alist in *. cbn [decayed asend arecv]. destruct r.
      + destruct (Z.gtb_spec (Z.of_nat (length (arecv e))) 1); lia.
      + destruct (Z.gtb_spec (Z.of_nat (length (asend e))) 1); lia.
  Qed.
  (** conditions along the way, in terms of the table *)
  Lemma calm_total s b ab tb c : Inv me K b ab tb -> calm s tb c -> total (ab (bucket_of s)) <= 254 /\ (c = Exhale (bucket_of s) -> forall e, In e (ab (bucket_of s)) -> used e <> 32).
  Proof.
    intros I Q. pose proof (iv_rel _ _ _ _ _ I (bucket_of s)) as R. unfold calm in Q. destruct (buckets tb (bucket_of s)) as [bk|].
    - destruct R as [R _]. destruct (Q bk eq_refl) as [Q1 Q2]. rewrite (kept_total _ _ R) in Q1. split; auto. intros E e He. destruct (kept_of _ _ _ R He) as (p & Hp & Ep). rewrite <- Ep. auto.
    - rewrite R. cbn. split; [lia|]. intros _ e [].
  Qed.
  Lemma keep_run s r h : forall b ab tb tb' a, Inv me K b ab tb -> Forall (fine K) h -> timed b h -> run tb h = Ok tb' -> held tb' = false -> along (calm s) tb h -> Vis ab tb (bucket_of s) ->
    8 * decays (bucket_of s) h < a -> a <= 255 -> holds ab s r a ->
    holds (arun me ab h) s r (a - 8 * decays (bucket_of s) h) /\ Vis (arun me ab h) tb' (bucket_of s).
  Proof.
    destruct C as [C1 C2 C3 C4]. induction h as [|c h IH]; intros b ab tb tb' a I F T E H Al V Ha Ha' Ho; cbn [run arun timed along] in *.
    - change (decays (bucket_of s) []) with 0 in *. rewrite Z.sub_0_r. injection E as <-. auto.
    - inversion F as [|? ? Fc F']; subst. destruct T as [Tc T]. destruct Al as [Q Al]. destruct (calm_total s b ab tb c I Q) as [Q1 Q2].
      pose proof (run_room me K C1 C2 C3 C4 (c :: h) b ab tb tb' I F (conj Tc T) E H [] c h eq_refl) as R. cbn [arun] in R.
      destruct (step_room me K C1 C2 C3 C4 b ab tb c I Fc Tc R) as (t1 & ret & E1 & I1 & V1 & _). rewrite E1 in E, Al. cbn [obind] in E.
      assert (D : decays (bucket_of s) (c :: h) = (match c with Exhale i => if i =? bucket_of s then 1 else 0 | _ => 0 end) + decays (bucket_of s) h).
      { unfold decays. cbn [filter]. destruct c; try lia. destruct (i =? bucket_of s); cbn [length]; lia. }
      assert (Dn : 0 <= decays (bucket_of s) h) by (unfold decays; lia).
      assert (Step : holds (astep me ab c) s r (a - 8 * (match c with Exhale i => if i =? bucket_of s then 1 else 0 | _ => 0 end))).
      { assert (FA := iv_ae _ _ _ _ _ I (bucket_of s)). destruct c as [s0 src0 r0 k0 n0|s0 src0 r0 n0|i]; cbn [astep].
        - rewrite Z.mul_0_r, Z.sub_0_r. destruct (strength k0 =? 0) eqn:Sk; auto. unfold fine, at_or_after in *. cbn [smells] in *. eapply holds_inhale; eauto; try tauto. pose proof (strength_eq k0). lia.
        - rewrite Z.mul_0_r, Z.sub_0_r. unfold fine, at_or_after in *. cbn [smells] in *. eapply holds_inhale; eauto; try tauto. lia.
        - replace (a - 8 * (if i =? bucket_of s then 1 else 0)) with (if i =? bucket_of s then a - 8 else a) by (destruct (i =? bucket_of s); lia). eapply holds_exhale; eauto. intros Ei. subst i. rewrite Z.eqb_refl in D. split; [lia|]. apply Q2; auto. }
      assert (Vs : Vis (astep me ab c) t1 (bucket_of s)).
      { apply V1; auto. intros s0 src0 r0 k0 n0 Es Eb. unfold fine, at_or_after in *. rewrite Es in *. destruct Fc as (W & Rg & HK). pose proof (ae_later K b n0 (bucket_of s)) as Lt.
        assert (FA : Forall (AE K n0 (bucket_of s)) (ab (bucket_of s))). { pose proof (iv_ae _ _ _ _ _ I (bucket_of s)) as FA. rewrite Forall_forall in *. auto. }
        assert (TU : forall a0, total (ainhale me s0 a0 r0 src0 n0 (ab (bucket_of s))) <= 255) by (intros a0; pose proof (total_upd me K C1 C2 C4 n0 (bucket_of s) s0 a0 r0 src0 _ FA (iv_distinct _ _ _ _ _ I _) HK); lia).
        destruct c as [s1 src1 r1 k1 n1|s1 src1 r1 n1|i]; cbn [smells] in Es; [injection Es as <- <- <- <- <-|injection Es as <- <- <- <- <-|discriminate]; cbn [astep].
        - destruct (strength k1 =? 0); [lia|]. rewrite Eb, set_ab_same. apply TU.
        - rewrite Eb, set_ab_same. apply TU. }
      destruct (IH (next b c) (astep me ab c) t1 tb' (a - 8 * (match c with Exhale i => if i =? bucket_of s then 1 else 0 | _ => 0 end))) as [H1 H2]; auto; try lia.
      { destruct c; try lia; destruct (i =? bucket_of s); lia. }
      split; auto. rewrite D. replace (a - 8 * (_ + decays (bucket_of s) h)) with (a - 8 * (match c with Exhale i => if i =? bucket_of s then 1 else 0 | _ => 0 end) - 8 * decays (bucket_of s) h) by lia. exact H1.
  Qed.
  (** * ... and gone after enough decays *)
  Lemma gone_run s h : wf_key s -> regular s -> forall b ab tb tb' n, Inv me K b ab tb -> Forall (fine K) h -> timed b h -> run tb h = Ok tb' -> held tb' = false ->
    (forall s', In s' (subjects h) -> ~ same_cells s s') -> (forall e, In e (ab (bucket_of s)) -> same_cells s (asub e) -> aage e <= 255 - 8 * n) ->
    forall e, In e (arun me ab h (bucket_of s)) -> same_cells s (asub e) -> aage e <= 255 - 8 * (n + decays (bucket_of s) h).
  Proof.
    intros Ws Rs. destruct C as [C1 C2 C3 C4]. induction h as [|c h IH]; intros b ab tb tb' n I F T E H No Ag; cbn [run arun timed] in *.
    - change (decays (bucket_of s) []) with 0. rewrite Z.add_0_r. exact Ag.
    - inversion F as [|? ? Fc F']; subst. destruct T as [Tc T]. pose proof (run_room me K C1 C2 C3 C4 (c :: h) b ab tb tb' I F (conj Tc T) E H [] c h eq_refl) as R. cbn [arun] in R.
      destruct (step_room me K C1 C2 C3 C4 b ab tb c I Fc Tc R) as (t1 & ret & E1 & I1 & _ & _). rewrite E1 in E. cbn [obind] in E.
      assert (D : decays (bucket_of s) (c :: h) = (match c with Exhale i => if i =? bucket_of s then 1 else 0 | _ => 0 end) + decays (bucket_of s) h).
      { unfold decays. cbn [filter]. destruct c; try lia. destruct (i =? bucket_of s); cbn [length]; lia. }
      assert (No' : forall s', In s' (subjects h) -> ~ same_cells s s').
      { intros s' Hs. apply No. change (subjects (c :: h)) with (subjects ([c] ++ h)). rewrite subjects_app. apply in_or_app. auto. }
      assert (Gen : forall s0 a0 r0 src0 n0, ~ same_cells s s0 -> forall e, In e (set_ab ab (bucket_of s0) (ainhale me s0 a0 r0 src0 n0 (ab (bucket_of s0))) (bucket_of s)) -> same_cells s (asub e) -> aage e <= 255 - 8 * n).
      { intros s0 a0 r0 src0 n0 Ns e He S. unfold set_ab in He. destruct (Z.eqb_spec (bucket_of s) (bucket_of s0)) as [Eb|Eb]; [|auto]. rewrite <- Eb in He. apply in_ainhale in He. destruct He as [(e0 & H0 & ->)|[-> _]].
        - rewrite aupd_sub in S. unfold aupd. replace (same_b (asub e0) s0) with false; [auto|]. symmetry. apply not_true_is_false. intros Q. apply same_b_iff in Q. apply Ns. eapply same_trans; eauto.
        - exfalso. apply Ns. exact S. }
      rewrite D, Z.add_assoc. apply (IH (next b c) (astep me ab c) t1 tb'); auto.
      destruct c as [s0 src0 r0 k0 n0|s0 src0 r0 n0|i]; cbn [astep]; rewrite ?Z.add_0_r.
      + destruct (strength k0 =? 0); [auto|]. apply Gen. apply No. left. auto.
      + apply Gen. apply No. left. auto.
      + intros e He S. unfold set_ab in He. destruct (Z.eqb_spec (bucket_of s) i) as [Eb|Eb].
        * subst i. rewrite Z.eqb_refl. rewrite aexhale_map in He. apply in_map_iff in He. destruct He as (e0 & <- & He). apply filter_In in He. destruct He as [He Al]. cbn [decayed asub aage] in *. specialize (Ag e0 He S).
          unfold alive in Al. apply negb_true_iff, orb_false_iff in Al. destruct Al as [Al _]. unfold faded in *. destruct (Z.ltb_spec 8 (aage e0)); lia.
        * replace (i =? bucket_of s) with false by lia. rewrite Z.add_0_r. auto.
  Qed.
End Back.
