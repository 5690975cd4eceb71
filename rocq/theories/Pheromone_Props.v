(** C29: the pheromone table stays bounded, keeps what was smelled, and forgets it *)
From Verif Require Import Base Dhkey_Model Dhkey_Proofs Bloom_Model Bloom_Spec Bloom_Std Bloom_Decay Bloom_Count Bloom_Nbf
  Pheromone_Model Pheromone_Spec Pheromone_Filter Pheromone_Proofs Pheromone_Sim Pheromone_Hist Pheromone_Facts.

(** Whatever filters, positions and sources come in and however the calls are mixed: at most 31 entries per bucket, and at
    most 19 sources in every list. *)
Theorem C29_bounded : forall me h tb i b, any_run (new_table me) h = Ok tb -> buckets tb i = Some b ->
  (length (ents b) <= 31)%nat /\ Forall (fun e => Z.of_nat (length (send e)) <= 19 /\ Z.of_nat (length (recv e)) <= 19) (ents b).
Proof. intros me h tb i b E Hb. eapply any_bounded; eauto. intros j b' Q. discriminate. Qed.

(** With at most 30 subjects per bucket every history is carried out and the lock is free afterwards. *)
Theorem C29_total : forall me h, good me h ->
  (forall l i, NoDup l -> Forall (fun s => bucket_of s = i /\ In s (subjects h)) l -> (length l <= 30)%nat) ->
  exists tb, run (new_table me) h = Ok tb /\ held tb = false.
Proof.
  intros me h G Few. destruct (good_ctx me h G) as (C & F & T). destruct (few_room me (sources h) C h F Few h (start h) (fun _ => []) (new_table me)) as (tb & E & I); auto.
  - apply inv_new.
  - intros x; auto.
  - intros i e [].
  - exists tb. split; auto. apply I.
Qed.

Lemma ask tb s (r : bool) prob : (if r then snuffle_receiver tb s prob else snuffle_sender tb s prob) = snuffle tb s prob (negb r) r.
Proof. destruct r; reflexivity. Qed.
Lemma smells_of_iff c s src r k : smells_of c s src r k -> exists now, smells c = Some (s, src, r, k, now).
Proof. intros [(now & ->)|(-> & now & ->)]; exists now; reflexivity. Qed.
Lemma astep_smells me ab c s src r k now : smells c = Some (s, src, r, k, now) -> strength k <> 0 -> astep me ab c = set_ab ab (bucket_of s) (ainhale me s (strength k) r src now (ab (bucket_of s))).
Proof.
  intros E N. destruct c as [s0 src0 r0 k0 n0|s0 src0 r0 n0|i]; cbn [smells] in E; [injection E as -> -> -> -> ->|injection E as -> -> -> <- ->|discriminate]; cbn [astep]; auto.
  replace (strength k =? 0) with false by lia. reflexivity.
Qed.
Lemma run_app h h' : forall tb tb', run tb (h ++ h') = Ok tb' -> exists t, run tb h = Ok t /\ run t h' = Ok tb'.
Proof.
  induction h as [|c h IH]; intros tb tb'; cbn [app run]; [eauto|]. destruct (step tb c) as [[t x]| |]; cbn [obind]; try discriminate. apply IH.
Qed.
Lemma held_before h tb tb' : run tb h = Ok tb' -> held tb' = false -> held tb = false.
Proof. intros E H. destruct (held tb) eqn:Q; auto. pose proof (run_held h tb tb' Q E). congruence. Qed.
Lemma good_cons_wf me h c h' s src r k now : good me (h ++ c :: h') -> smells c = Some (s, src, r, k, now) -> wf_key s /\ regular s /\ In src (sources (h ++ c :: h')).
Proof.
  intros G E. destruct (good_ctx _ _ G) as (_ & F & _). rewrite Forall_forall in F. specialize (F c ltac:(apply in_or_app; right; left; auto)). unfold fine in F. rewrite E in F. tauto.
Qed.

(** What a smell does, for the proofs below. *)
Lemma smell_effect me h c h' s src r k tb : good me (h ++ c :: h') -> smells_of c s src r k -> Z.of_nat k <= 15 ->
  run (new_table me) h = Ok tb -> held tb = false -> (forall b, buckets tb (bucket_of s) = Some b -> (length (ents b) <= 30)%nat /\ kept_in b <= 254) ->
  exists tb' now e, smells c = Some (s, src, r, k, now) /\ step tb c = Ok (tb', true) /\ run (new_table me) (h ++ [c]) = Ok tb' /\
    Inv me (sources (h ++ c :: h')) (now + 1) (arun me (fun _ => []) (h ++ [c])) tb' /\ Vis (arun me (fun _ => []) (h ++ [c])) tb' (bucket_of s) /\
    In e (arun me (fun _ => []) (h ++ [c]) (bucket_of s)) /\ same_cells s (asub e) /\ 128 - 8 * Z.of_nat k <= aage e /\ In src (map peer (alist e r)) /\
    ((forall e0, In e0 (arun me (fun _ => []) h (bucket_of s)) -> ~ same_cells s (asub e0)) \/
     (exists e0, In e0 (arun me (fun _ => []) h (bucket_of s)) /\ same_cells s (asub e0) /\ alist e r = upd_list me (alist e0 r) src now /\ alist e (negb r) = alist e0 (negb r) /\ Lst (sources (h ++ c :: h')) now (alist e0 r))).
Proof.
  intros G Sm Hk E H Rm. destruct (smells_of_iff _ _ _ _ _ Sm) as (now & Ec). pose proof (good_cons_wf _ _ _ _ _ _ _ _ _ G Ec) as (Ws & Rs & HK).
  destruct (good_mid me h (c :: h') tb G E H) as (I & C & F & T). set (K := sources (h ++ c :: h')) in *. set (ab := arun me (fun _ => []) h) in *. set (b := last_time _ h) in *.
  inversion F as [|? ? Fc _]; subst. cbn [timed] in T. destruct T as [Tc _]. pose proof (strength_eq k) as Sk. assert (Hb : b <= now) by (unfold at_or_after in Tc; rewrite Ec in Tc; auto).
  assert (L : (length (ab (bucket_of s)) <= 30)%nat /\ total (ab (bucket_of s)) <= 254).
  { pose proof (iv_rel _ _ _ _ _ I (bucket_of s)) as R. destruct (buckets tb (bucket_of s)) as [bk|]; [destruct R as [R _]; destruct (Rm bk eq_refl); rewrite (f2_len _ _ _ R), <- (kept_total _ _ R); auto|rewrite R; cbn; lia]. }
  assert (R : room ab c) by (destruct c as [s0 src0 r0 k0 n0|s0 src0 r0 n0|i]; cbn [smells] in Ec; [injection Ec as -> -> -> -> ->|injection Ec as -> -> -> <- ->|discriminate]; cbn [room]; lia).
  destruct C as [C1 C2 C3 C4]. destruct (step_room me K C1 C2 C3 C4 b ab tb c I Fc Tc R) as (tb' & ret & E1 & I1 & _ & V). destruct (V _ _ _ _ _ Ec ltac:(lia)) as [-> V'].
  assert (EqA : arun me (fun _ => []) (h ++ [c]) = astep me ab c) by (rewrite arun_app; reflexivity).
  assert (EqS : astep me ab c (bucket_of s) = ainhale me s (strength k) r src now (ab (bucket_of s))) by (rewrite (astep_smells me ab c _ _ _ _ _ Ec) by lia; apply set_ab_same).
  assert (FA : Forall (AE K now (bucket_of s)) (ab (bucket_of s))). { pose proof (iv_ae _ _ _ _ _ I (bucket_of s)) as FA. rewrite Forall_forall in FA |- *. intros e He. eapply ae_later; eauto. }
  assert (Tt : total (astep me ab c (bucket_of s)) <= 255). { rewrite EqS. pose proof (total_upd me K C1 C2 C4 now (bucket_of s) s (strength k) r src _ FA (iv_distinct _ _ _ _ _ I _) HK). lia. }
  assert (Nx : next b c = now + 1) by (unfold next; rewrite Ec; auto). rewrite Nx in I1.
  assert (Run : run (new_table me) (h ++ [c]) = Ok tb').
  { clear - E E1. revert E. generalize (new_table me). induction h as [|x h IH]; intros t; cbn [app run]; [intros [= ->]; rewrite E1; reflexivity|]. destruct (step t x) as [[t1 z]| |]; cbn [obind]; try discriminate. apply IH. }
  assert (Common : exists e, In e (astep me ab c (bucket_of s)) /\ same_cells s (asub e) /\ 128 - 8 * Z.of_nat k <= aage e /\ In src (map peer (alist e r)) /\
    ((forall e0, In e0 (ab (bucket_of s)) -> ~ same_cells s (asub e0)) \/
     (exists e0, In e0 (ab (bucket_of s)) /\ same_cells s (asub e0) /\ alist e r = upd_list me (alist e0 r) src now /\ alist e (negb r) = alist e0 (negb r) /\ Lst K now (alist e0 r)))).
  { rewrite EqS. destruct (existsb (fun e => same_b (asub e) s) (ab (bucket_of s))) eqn:Ex.
    - apply existsb_exists in Ex. destruct Ex as (e0 & He0 & S0). exists (aupd me s (strength k) r src now e0). split; [apply ainhale_keeps; auto|]. rewrite aupd_sub. apply same_b_iff in S0 as S1. split; [apply same_sym; auto|].
      rewrite Forall_forall in FA. pose proof (FA e0 He0) as A. pose proof (ae_age _ _ _ _ A). unfold aupd. rewrite S0. cbn [aage]. split; [lia|].
      assert (HL : Lst K now (alist e0 r)) by (destruct r; apply A). assert (Eq : alist (mkA (asub e0) (Z.min 255 (aage e0 + strength k)) (if r then asend e0 else upd_list me (asend e0) src now) (if r then upd_list me (arecv e0) src now else arecv e0)) r = upd_list me (alist e0 r) src now) by (destruct r; reflexivity).
      rewrite Eq. split; [exact (proj1 (proj2 (upd_lst me K C1 C2 C4 now _ src HL HK)))|]. right. exists e0. split; auto. split; [apply same_sym; auto|]. split; [reflexivity|]. split; [destruct r; reflexivity|auto].
    - exists (anew s (strength k) r src now). unfold ainhale. rewrite Ex. split; [apply in_or_app; right; left; auto|]. cbn [anew asub aage]. split; [apply same_refl|]. split; [lia|]. split; [destruct r; left; reflexivity|]. left. intros e0 He0 S0. assert (existsb (fun e => same_b (asub e) s) (ab (bucket_of s)) = true); [|congruence]. apply existsb_exists. exists e0. split; auto. apply same_b_iff, same_sym, S0. }
  destruct Common as (e & He & Q). exists tb', now, e. rewrite EqA. split; [exact Ec|]. split; [exact E1|]. split; [exact Run|]. split; [exact I1|]. split; [apply V'; auto|]. split; [exact He|exact Q].
Qed.

(** A pheromone that is not older than 0.15 s is taken in, and asking for it at once names the neighbour it came from, with
    at least the strength it had, as long as the bucket has room. *)
Theorem C29_found : forall me h c s src (r : bool) k tb, good me (h ++ [c]) -> smells_of c s src r k -> Z.of_nat k <= 15 ->
  run (new_table me) h = Ok tb -> held tb = false -> (forall b, buckets tb (bucket_of s) = Some b -> (length (ents b) <= 30)%nat /\ kept_in b <= 254) ->
  exists tb', step tb c = Ok (tb', true) /\
    forall prob, prob <= 128 - 8 * Z.of_nat k -> exists ks pr,
      (if r then snuffle_receiver tb' s prob else snuffle_sender tb' s prob) = Ok (ks, pr) /\ In src ks /\ NoDup ks /\ 128 - 8 * Z.of_nat k <= pr.
Proof.
  intros me h c s src r k tb G Sm Hk E H Rm. destruct (smell_effect me h c [] s src r k tb G Sm Hk E H Rm) as (tb' & now & e & Ec & E1 & _ & I & V & He & S & Ag & Src & _). exists tb'. split; auto.
  intros prob Hp. pose proof (good_cons_wf _ _ _ _ _ _ _ _ _ G Ec) as (Ws & Rs & HK). rewrite ask.
  destruct (snuffle_ok me _ _ _ _ s prob (negb r) r e I Ws Rs V He S ltac:(lia)) as (pr & Eq & Hpr). rewrite (found_one _ e s (negb r) r (iv_distinct _ _ _ _ _ I _) He S) in Eq.
  pose proof (iv_ae _ _ _ _ _ I (bucket_of s)) as FA. rewrite Forall_forall in FA. specialize (FA e He).
  exists (map peer (alist e r)), pr. split; [rewrite Eq; unfold alist; destruct r; reflexivity|]. split; auto. split; [|lia]. destruct r; apply FA.
Qed.

(** Nobody is named who was not smelled: every answer, for any subject and any demand, consists of neighbours that brought a
    pheromone of this subject (or of one the filters cannot tell from it) for that direction. *)
Theorem C29_sound : forall me h tb s (r : bool) prob, good me h -> run (new_table me) h = Ok tb -> held tb = false -> wf_key s -> regular s ->
  exists ks pr, (if r then snuffle_receiver tb s prob else snuffle_sender tb s prob) = Ok (ks, pr) /\
    forall src, In src ks -> exists s', same_cells s' s /\ smelled h s' src r.
Proof.
  intros me h tb s r prob G E H W Rg. pose proof (good_inv me h tb G E H) as I. destruct (good_ctx me h G) as (C & F & T).
  assert (B : backed h (arun me (fun _ => []) h)) by (eapply (backed_run me (sources h) C h h (start h)); eauto; [apply inv_new|intros x; auto|intros i e []]).
  rewrite ask. destruct (snuffle_any me _ _ _ _ s prob (negb r) r I W Rg) as (ks & pr & Eq & Hks). exists ks, pr. split; auto. intros src Hs. destruct Hks as [->| ->]; [destruct Hs|].
  destruct (found_cases (arun me (fun _ => []) h (bucket_of s)) s (negb r) r (iv_distinct _ _ _ _ _ I _)) as [(e & He & S & Q)|Q]; rewrite Q in Hs; [|destruct Hs]. destruct (B _ e He) as (_ & B2 & B3).
  destruct r; cbn [negb] in Hs; [destruct (B3 src Hs) as (s' & S' & M)|destruct (B2 src Hs) as (s' & S' & M)]; exists s'; (split; [eapply same_trans; [exact S'|apply same_sym; exact S]|exact M]).
Qed.

(** What was smelled stays answerable while its strength lasts (8 of 256 are lost per decay of its bucket), whatever else is
    smelled meanwhile, as long as the bucket never holds more than 254 sources and none of its entries has exactly 32
    sources when the bucket decays. *)
Theorem C29_kept_partial : forall me h c h' s src r k tb tb', good me (h ++ c :: h') -> smells_of c s src r k ->
  run (new_table me) h = Ok tb -> run tb (c :: h') = Ok tb' -> held tb' = false ->
  (forall b, buckets tb (bucket_of s) = Some b -> (length (ents b) <= 30)%nat) -> along (calm s) tb (c :: h') ->
  Z.of_nat k + decays (bucket_of s) h' <= 15 ->
  exists ks pr, trail tb' s r = Ok (ks, pr) /\ ks <> [] /\ 128 - 8 * (Z.of_nat k + decays (bucket_of s) h') <= pr.
Proof.
  intros me h c h' s src r k tb tb' G Sm E E' H' Rm Al Hk. pose proof (held_before _ _ _ E' H') as H. assert (Dn : 0 <= decays (bucket_of s) h') by (unfold decays; lia).
  destruct Al as [Q Al]. destruct (smell_effect me h c h' s src r k tb G Sm ltac:(lia) E H) as (t1 & now & e & Ec & E1 & _ & I & V & He & S & Ag & Src & _).
  { intros b Hb. split; [eauto|]. apply (Q b Hb). }
  cbn [run] in E'. rewrite E1 in E', Al. cbn [obind] in E'. destruct (good_mid me h (c :: h') tb G E H) as (_ & C & F & T). inversion F as [|? ? Fc F']; subst. cbn [timed] in T. destruct T as [_ T].
  assert (Nx : next (last_time (start (h ++ c :: h')) h) c = now + 1) by (unfold next; rewrite Ec; auto). rewrite Nx in T.
  pose proof (good_cons_wf _ _ _ _ _ _ _ _ _ G Ec) as (Ws & Rs & HK).
  destruct (keep_run me _ C s r h' (now + 1) _ t1 tb' (128 - 8 * Z.of_nat k) I F' T E' H' Al V ltac:(lia) ltac:(lia)) as [(e2 & He2 & S2 & Ag2 & L2) V2].
  { exists e. repeat (split; auto). destruct (alist e r); [destruct Src|cbn; lia]. }
  assert (I2 : Inv me (sources (h ++ c :: h')) (last_time (now + 1) h') (arun me (arun me (fun _ => []) (h ++ [c])) h') tb') by (destruct C as [C1 C2 C3 C4]; eapply run_inv; eauto).
  unfold trail. rewrite ask. destruct (snuffle_ok me _ _ _ _ s 0 (negb r) r e2 I2 Ws Rs V2 He2 S2 ltac:(lia)) as (pr & Eq & Hpr). rewrite (found_one _ e2 s (negb r) r (iv_distinct _ _ _ _ _ I2 _) He2 S2) in Eq.
  exists (map peer (alist e2 r)), pr. split; [rewrite Eq; unfold alist; destruct r; reflexivity|]. split; [destruct (alist e2 r); [cbn in L2; lia|discriminate]|lia].
Qed.

(** ... and is forgotten after 32 decays of its bucket without a new pheromone. *)
Theorem C29_forgotten : forall me h h' tb tb' s r, good me (h ++ h') -> run (new_table me) h = Ok tb -> run tb h' = Ok tb' -> held tb' = false -> wf_key s -> regular s ->
  (forall s', In s' (subjects h') -> ~ same_cells s s') -> 32 <= decays (bucket_of s) h' ->
  exists pr, trail tb' s r = Ok ([], pr).
Proof.
  intros me h h' tb tb' s r G E E' H' W Rg No D. pose proof (held_before _ _ _ E' H') as H. destruct (good_mid me h h' tb G E H) as (I & C & F & T).
  assert (A0 : forall e, In e (arun me (fun _ => []) h (bucket_of s)) -> same_cells s (asub e) -> aage e <= 255 - 8 * 0).
  { intros e He _. pose proof (iv_ae _ _ _ _ _ I (bucket_of s)) as FA. rewrite Forall_forall in FA. pose proof (ae_age _ _ _ _ (FA e He)). lia. }
  pose proof (gone_run me _ C s h' W Rg _ _ tb tb' 0 I F T E' H' No A0) as Gn.
  assert (I2 : Inv me (sources (h ++ h')) (last_time (last_time (start (h ++ h')) h) h') (arun me (arun me (fun _ => []) h) h') tb') by (destruct C as [C1 C2 C3 C4]; eapply run_inv; eauto).
  assert (Fn : found (arun me (arun me (fun _ => []) h) h' (bucket_of s)) s (negb r) r = []).
  { apply found_none. intros e He S. specialize (Gn e He S). pose proof (iv_ae _ _ _ _ _ I2 (bucket_of s)) as FA. rewrite Forall_forall in FA. pose proof (ae_age _ _ _ _ (FA e He)). lia. }
  unfold trail. rewrite ask. destruct (snuffle_any me _ _ _ _ s 0 (negb r) r I2 W Rg) as (ks & pr & Eq & Hks). exists pr. rewrite Eq. destruct Hks as [->| ->]; [auto|rewrite Fn; auto].
Qed.

(** Another source of a known subject: the list keeps everybody if the source was there or the list has fewer than 19
    members; otherwise exactly one member goes, and it is not the new one. *)
Theorem C29_replace_partial : forall me h c s src r k tb ks pr, good me (h ++ [c]) -> smells_of c s src r k -> Z.of_nat k <= 15 ->
  run (new_table me) h = Ok tb -> held tb = false -> (forall b, buckets tb (bucket_of s) = Some b -> (length (ents b) <= 30)%nat /\ kept_in b <= 254) ->
  trail tb s r = Ok (ks, pr) -> ks <> [] ->
  exists tb' ks' pr', step tb c = Ok (tb', true) /\ trail tb' s r = Ok (ks', pr') /\ In src ks' /\ incl ks' (src :: ks) /\
    (In src ks \/ Z.of_nat (length ks) < 19 -> incl ks ks') /\
    (~ In src ks -> Z.of_nat (length ks) = 19 -> Z.of_nat (length ks') = 19 /\
       exists x, In x ks /\ ~ In x ks' /\ forall y, In y ks -> y = x \/ In y ks').
Proof.
  intros me h c s src r k tb ks pr G Sm Hk E H Rm Tr Ne. destruct (smell_effect me h c [] s src r k tb G Sm Hk E H Rm) as (tb' & now & e & Ec & E1 & _ & I & V & He & S & Ag & Src & Old).
  pose proof (good_cons_wf _ _ _ _ _ _ _ _ _ G Ec) as (Ws & Rs & HK). destruct (good_mid me h [c] tb G E H) as (I0 & C & _ & _).
  unfold trail in Tr |- *. rewrite ask in Tr. destruct (snuffle_any me _ _ _ _ s 0 (negb r) r I0 Ws Rs) as (ks0 & pr0 & Eq0 & H0). rewrite Tr in Eq0. injection Eq0 as <- <-. destruct H0 as [->|H0]; [congruence|].
  destruct Old as [Old|(e0 & He0 & S0 & L1 & _ & HL)]; [rewrite (found_none _ _ _ _ Old) in H0; congruence|].
  rewrite (found_one _ e0 s (negb r) r (iv_distinct _ _ _ _ _ I0 _) He0 S0) in H0. assert (Hks : ks = map peer (alist e0 r)) by (rewrite H0; unfold alist; destruct r; reflexivity). clear H0.
  destruct (snuffle_ok me _ _ _ _ s 0 (negb r) r e I Ws Rs V He S ltac:(lia)) as (pr' & Eq & Hpr). rewrite (found_one _ e s (negb r) r (iv_distinct _ _ _ _ _ I _) He S) in Eq.
  exists tb', (map peer (alist e r)), pr'. split; auto. split; [rewrite ask, Eq; unfold alist; destruct r; reflexivity|]. split; auto.
  destruct C as [C1 C2 C3 C4]. destruct (upd_lst me _ C1 C2 C4 now (alist e0 r) src HL HK) as (_ & _ & U1 & U2 & _ & U3). rewrite L1, Hks, !map_length. split; [exact U1|]. split; [exact U2|exact U3].
Qed.

(** * Concrete histories *)
Definition regular_b (s : key) : bool := (fix go l := match l with [] => true | c :: r => negb (existsb (cell_eqb c) r) && go r end) (cells_of s).
Definition wf_b (k : key) : bool := (length k =? 8)%nat && forallb (fun w => (0 <=? w) && (w <? 4294967296)) k.
Lemma wf_b_ok k : wf_b k = true -> wf_key k.
Proof. unfold wf_b. intros H. apply andb_true_iff in H. destruct H as [H1 H2]. apply Nat.eqb_eq in H1. split; auto. rewrite forallb_forall in H2. apply Forall_forall. intros w Hw. specialize (H2 w Hw). unfold is_word. lia. Qed.
Lemma regular_b_ok s : regular_b s = true -> regular s.
Proof.
  unfold regular_b, regular. induction (cells_of s) as [|c l IH]; [constructor|]. intros H. apply andb_true_iff in H. destruct H as [H1 H2]. constructor; auto. intros Hc. apply negb_true_iff in H1.
  assert (existsb (cell_eqb c) l = true); [|congruence]. apply existsb_exists. exists c. split; auto. unfold cell_eqb. rewrite !Z.eqb_refl. reflexivity.
Qed.
Definition inc_b := fix go (l : list Z) := match l with [] => true | x :: r => match r with [] => true | y :: _ => x <? y end && go r end.
Lemma inc_b_ok l : inc_b l = true -> increasing l.
Proof. induction l as [|x r IH]; cbn [inc_b increasing]; [auto|]. intros H. apply andb_true_iff in H. destruct H as [H1 H2]. split; [|auto]. destruct r; [auto|lia]. Qed.
Definition apart_b (me : key) (ks : list key) : bool :=
  forallb (fun a => forallb (fun b => np_dhkey_equal a b || negb (np_dhkey_equal (np_dhkey_distance me a) (np_dhkey_distance me b))) ks) ks.
Lemma apart_b_ok me ks : wf_key me -> Forall wf_key ks -> apart_b me ks = true -> apart me ks.
Proof.
  intros Wm W H a b Ha Hb E. unfold apart_b in H. rewrite forallb_forall in H. specialize (H a Ha). rewrite forallb_forall in H. specialize (H b Hb). rewrite Forall_forall in W.
  apply orb_true_iff in H. destruct H as [H|H]; [apply equal_spec in H; auto|]. apply negb_true_iff in H. rewrite E in H.
  assert (np_dhkey_equal (np_dhkey_distance me b) (np_dhkey_distance me b) = true); [|congruence]. apply equal_spec; auto; apply distance_wf; auto.
Qed.
Definition good_b (me : key) (h : list call) : bool :=
  wf_b me && forallb (fun s => wf_b s && regular_b s) (subjects h) && forallb (fun k => wf_b k && negb (np_dhkey_equal k zero_key)) (sources h) && apart_b me (sources h) && inc_b (times h)
  && forallb (fun c => match c with Exhale i => (0 <=? i) && (i <? 257) | _ => true end) h.
Lemma good_b_ok me h : good_b me h = true -> good me h.
Proof.
  unfold good_b. rewrite !andb_true_iff, !forallb_forall. intros (((((H1 & H2) & H3) & H4) & H5) & H6). apply wf_b_ok in H1.
  assert (S : Forall (fun k => wf_key k /\ k <> repeat 0 8) (sources h)).
  { apply Forall_forall. intros k Hk. specialize (H3 k Hk). apply andb_true_iff in H3. destruct H3 as [A B]. split; [apply wf_b_ok; auto|]. intros ->. discriminate. }
  constructor; auto.
  - apply Forall_forall. intros s Hs. specialize (H2 s Hs). apply andb_true_iff in H2. split; [apply wf_b_ok|apply regular_b_ok]; tauto.
  - apply apart_b_ok; auto. eapply Forall_impl; [|exact S]. cbn. tauto.
  - apply inc_b_ok; auto.
  - apply Forall_forall. intros c Hc. specialize (H6 c Hc). destruct c; auto. lia.
Qed.
Definition room_b (ab : Z -> list aent) (c : call) : bool :=
  match c with Exhale i => (length (ab i) <=? 30)%nat || forallb alive (ab i) | Smell s _ _ k _ => (length (ab (bucket_of s)) <? 31)%nat | Use s _ _ _ => (length (ab (bucket_of s)) <? 31)%nat end.
Lemma room_b_ok ab c : room_b ab c = true -> room ab c.
Proof.
  destruct c as [s src r k now|s src r now|i]; cbn [room_b room]; intros H.
  - apply Nat.ltb_lt in H. auto.
  - apply Nat.ltb_lt in H. auto.
  - apply orb_true_iff in H. destruct H as [H|H]; [apply Nat.leb_le in H; auto|auto].
Qed.
Fixpoint check (me : key) (ab : Z -> list aent) (i : Z) (h : list call) : bool :=
  match h with [] => true | c :: r => room_b ab c && (total (astep me ab c i) <=? 255) && check me (astep me ab c) i r end.
Lemma check_run me K (C : ctx me K) i h : forall b ab tb, Inv me K b ab tb -> Vis ab tb i -> Forall (fine K) h -> timed b h -> check me ab i h = true ->
  exists tb', run tb h = Ok tb' /\ Inv me K (last_time b h) (arun me ab h) tb' /\ Vis (arun me ab h) tb' i.
Proof.
  destruct C as [C1 C2 C3 C4]. induction h as [|c h IH]; intros b ab tb I V F T Ck; cbn [run arun last_time timed check] in *; [eauto|]. inversion F as [|? ? Fc F']; subst. destruct T as [Tc T]. rewrite !andb_true_iff in Ck. destruct Ck as [[R Tt] Ck]. apply room_b_ok in R.
  destruct (step_room me K C1 C2 C3 C4 b ab tb c I Fc Tc R) as (t1 & ret & E1 & I1 & V1 & _). rewrite E1. cbn [obind]. apply IH; auto. apply V1; auto. intros. lia.
Qed.
Lemma good_check me h i : good_b me h = true -> check me (fun _ => []) i h = true ->
  exists tb, run (new_table me) h = Ok tb /\ Inv me (sources h) (last_time (start h) h) (arun me (fun _ => []) h) tb /\ Vis (arun me (fun _ => []) h) tb i.
Proof.
  intros G Ck. apply good_b_ok in G. destruct (good_ctx me h G) as (C & F & T). eapply check_run; eauto; [apply inv_new|cbn; auto].
Qed.
(** the answer, computed *)
Lemma answer me h s r : good_b me h = true -> check me (fun _ => []) (bucket_of s) h = true -> wf_b s && regular_b s = true ->
  existsb (fun e => same_b s (asub e)) (arun me (fun _ => []) h (bucket_of s)) = true ->
  exists tb pr, run (new_table me) h = Ok tb /\ held tb = false /\ trail tb s r = Ok (found (arun me (fun _ => []) h (bucket_of s)) s (negb r) r, pr) /\
    (forall a, existsb (fun e => same_b s (asub e) && (a <=? aage e)) (arun me (fun _ => []) h (bucket_of s)) = true -> a <= pr).
Proof.
  intros G Ck W Ex. destruct (good_check me h (bucket_of s) G Ck) as (tb & E & I & V). apply andb_true_iff in W. destruct W as [W Rg]. apply wf_b_ok in W. apply regular_b_ok in Rg. apply existsb_exists in Ex. destruct Ex as (e & He & S). apply same_b_iff in S.
  pose proof (iv_ae _ _ _ _ _ I (bucket_of s)) as FA. rewrite Forall_forall in FA. pose proof (ae_age _ _ _ _ (FA e He)).
  destruct (snuffle_ok me _ _ _ _ s 0 (negb r) r e I W Rg V He S ltac:(lia)) as (pr & Eq & Hp). exists tb, pr. split; auto. split; [apply I|]. unfold trail. rewrite ask. split; [exact Eq|].
  intros a Q. apply existsb_exists in Q. destruct Q as (e' & He' & Q). apply andb_true_iff in Q. destruct Q as [S' Q]. apply same_b_iff in S'. rewrite (distinct_one _ e' e s (iv_distinct _ _ _ _ _ I _) He' He (same_sym _ _ S') (same_sym _ _ S)) in Q. lia.
Qed.

Lemma check_app me i h h' : forall ab, check me ab i (h ++ h') = check me ab i h && check me (arun me ab h) i h'.
Proof. induction h as [|c h IH]; intros ab; cbn [app check arun]; [reflexivity|]. rewrite IH, andb_assoc. reflexivity. Qed.
Lemma good_prefix me h h' : good me (h ++ h') -> good me h.
Proof.
  intros G. destruct G as [G1 G2 G3 G4 G5 G6]. rewrite subjects_app in G2. rewrite sources_app in G3, G4. rewrite times_app in G5. apply Forall_app in G2, G3, G6. constructor; try tauto.
  - intros a b Ha Hb. apply G4; apply in_or_app; auto.
  - clear - G5. induction (times h) as [|x l IH]; cbn [increasing]; [auto|]. cbn [app increasing] in G5. destruct G5 as [A B]. split; [destruct l; auto|auto].
Qed.
Lemma answer2 me h c s src r k now : good_b me (h ++ [c]) = true -> smells c = Some (s, src, r, k, now) -> strength k =? 0 = false -> check me (fun _ => []) (bucket_of s) (h ++ [c]) = true ->
  existsb (fun e => same_b s (asub e)) (arun me (fun _ => []) h (bucket_of s)) = true -> existsb (fun e => same_b s (asub e)) (arun me (fun _ => []) (h ++ [c]) (bucket_of s)) = true ->
  exists tb tb' pr pr', good me (h ++ [c]) /\ run (new_table me) h = Ok tb /\ trail tb s r = Ok (found (arun me (fun _ => []) h (bucket_of s)) s (negb r) r, pr) /\
    step tb c = Ok (tb', true) /\ trail tb' s r = Ok (found (arun me (fun _ => []) (h ++ [c]) (bucket_of s)) s (negb r) r, pr').
Proof.
  intros Gb Ec Sk Ck Ex Ex'. pose proof (good_b_ok _ _ Gb) as G. destruct (good_ctx me _ G) as (C & F & T). rewrite Forall_app in F. destruct F as [F1 F2]. apply timed_app in T. destruct T as [T1 T2]. rewrite check_app in Ck. apply andb_true_iff in Ck. destruct Ck as [Ck1 Ck2].
  pose proof (good_cons_wf _ _ _ _ _ _ _ _ _ G Ec) as (W & Rg & _). rewrite arun_app in Ex' |- *. cbn [arun] in Ex' |- *.
  destruct (check_run me _ C (bucket_of s) h _ (fun _ => []) (new_table me) (inv_new me _ _) ltac:(cbn; auto) F1 T1 Ck1) as (tb & E & I & V). cbn [check] in Ck2. rewrite !andb_true_iff in Ck2. destruct Ck2 as [[R Tt] _]. apply room_b_ok in R.
  inversion F2 as [|? ? Fc _]; subst. cbn [timed] in T2. destruct C as [C1 C2 C3 C4]. destruct (step_room me _ C1 C2 C3 C4 _ _ tb c I Fc (proj1 T2) R) as (tb' & ret & Es & I' & _ & Vr). destruct (Vr _ _ _ _ _ Ec ltac:(lia)) as [-> V']. specialize (V' ltac:(lia)).
  assert (Gen : forall b ab t, Inv me (sources (h ++ [c])) b ab t -> Vis ab t (bucket_of s) -> existsb (fun e => same_b s (asub e)) (ab (bucket_of s)) = true -> exists pr, trail t s r = Ok (found (ab (bucket_of s)) s (negb r) r, pr)).
  { intros b ab t J U Q. apply existsb_exists in Q. destruct Q as (e & He & S). apply same_b_iff in S. pose proof (iv_ae _ _ _ _ _ J (bucket_of s)) as FA. rewrite Forall_forall in FA. pose proof (ae_age _ _ _ _ (FA e He)).
    destruct (snuffle_ok me _ _ _ _ s 0 (negb r) r e J W Rg U He S ltac:(lia)) as (pr & Eq & _). exists pr. unfold trail. rewrite ask. exact Eq. }
  destruct (Gen _ _ _ I V Ex) as (pr & Q). destruct (Gen _ _ _ I' V' Ex') as (pr' & Q'). exists tb, tb', pr, pr'. auto.
Qed.
Lemma gone2 me h i s r tb : let c := Exhale i in good_b me (h ++ [c]) = true -> room_b (arun me (fun _ => []) h) c = true -> wf_b s && regular_b s = true -> found (arun me (fun _ => []) (h ++ [c]) (bucket_of s)) s (negb r) r = [] -> check me (fun _ => []) (bucket_of s) h = true ->
  run (new_table me) h = Ok tb -> exists tb' pr, good me (h ++ [c]) /\ exhale tb i = Ok tb' /\ trail tb' s r = Ok ([], pr).
Proof.
  intros c Gb R W Fn Ck E. pose proof (good_b_ok _ _ Gb) as G. apply room_b_ok in R. apply andb_true_iff in W. destruct W as [W Rg]. apply wf_b_ok in W. apply regular_b_ok in Rg.
  destruct (good_ctx me _ G) as (C & F & T). rewrite Forall_app in F. destruct F as [F1 F2]. apply timed_app in T. destruct T as [T1 T2].
  destruct (check_run me _ C (bucket_of s) h _ (fun _ => []) (new_table me) (inv_new me _ _) ltac:(cbn; auto) F1 T1 Ck) as (tb0 & E0 & I & V). rewrite E in E0. injection E0 as <-.
  inversion F2 as [|? ? Fc _]; subst. cbn [timed] in T2. destruct C as [C1 C2 C3 C4]. destruct (step_room me _ C1 C2 C3 C4 _ _ tb c I Fc (proj1 T2) R) as (tb' & ret & Es & I' & _ & _).
  rewrite arun_app in Fn. cbn [arun] in Fn. destruct (snuffle_any me _ _ _ _ s 0 (negb r) r I' W Rg) as (ks & pr & Eq & Hks). rewrite Fn in Hks. exists tb', pr. split; auto. split; [unfold c in Es; cbn [step] in Es; destruct (exhale tb i); cbn [obind] in Es; try discriminate; injection Es as -> _; reflexivity|]. unfold trail. rewrite ask, Eq. destruct Hks as [->| ->]; reflexivity.
Qed.
Lemma full2 me h c s src r k now : good_b me (h ++ [c]) = true -> smells c = Some (s, src, r, k, now) -> strength k =? 0 = false -> check me (fun _ => []) (bucket_of s) h = true ->
  (length (arun me (fun _ => []) h (bucket_of s)) =? 31)%nat = true -> exists tb tb', good me (h ++ [c]) /\ run (new_table me) h = Ok tb /\ held tb = false /\ step tb c = Ok (tb', false) /\ held tb' = true.
Proof.
  intros Gb Ec Sk Ck L. apply Nat.eqb_eq in L. pose proof (good_b_ok _ _ Gb) as G. destruct (good_ctx me _ G) as (C & F & T). rewrite Forall_app in F. destruct F as [F1 F2]. apply timed_app in T. destruct T as [T1 T2].
  destruct (check_run me _ C (bucket_of s) h _ (fun _ => []) (new_table me) (inv_new me _ _) ltac:(cbn; auto) F1 T1 Ck) as (tb & E & I & V).
  inversion F2 as [|? ? Fc _]; subst. cbn [timed] in T2. destruct C as [C1 C2 C3 C4]. assert (R : ~ room (arun me (fun _ => []) h) c) by (destruct c as [s0 src0 r0 k0 n0|s0 src0 r0 n0|i]; cbn [smells] in Ec; [injection Ec as -> -> -> -> ->|injection Ec as -> -> -> <- ->|discriminate]; cbn [room]; lia).
  pose proof (step_full me _ C1 C2 C3 C4 _ _ tb c I Fc (proj1 T2) R) as Q. rewrite Ec in Q. destruct Q as (tb' & Es & H'). exists tb, tb'. repeat (split; auto). apply I.
Qed.

Definition here : key := repeat 0 8.
Definition near (i : Z) : key := [i; 0; 0; 0; 0; 0; 0; 0].
Definition topic (a : Z) : key := [0; 1; a; 0; 0; 1; 0; 1].
Definition subjects31 : list Z := [1; 2; 3; 4; 5; 6; 7; 8; 10; 11; 12; 13; 14; 16; 17; 19; 20; 21; 22; 23; 24; 26; 27; 28; 29; 32; 35; 37; 43; 44; 46].
Fixpoint timesteps (t : Z) (l : list Z) (f : Z -> Z -> call) : list call := match l with [] => [] | x :: r => f x t :: timesteps (t + 1) r f end.

(** The source that goes from a full list is not the oldest: 19 sources, the first of them at time 1 and the last at time
    19; the one that comes at time 20 replaces the one of time 19. *)
Definition h19 : list call := timesteps 1 [19; 18; 17; 16; 15; 14; 13; 12; 11; 10; 9; 8; 7; 6; 5; 4; 3; 2; 1] (fun d t => Use (topic 1) (near d) true t).
Theorem C29_oldest_refuted : exists me h s src now tb tb' ks pr ks' pr' x y tx ty, good me (h ++ [Use s src true now]) /\
  run (new_table me) h = Ok tb /\ trail tb s true = Ok (ks, pr) /\ length ks = 19%nat /\
  step tb (Use s src true now) = Ok (tb', true) /\ trail tb' s true = Ok (ks', pr') /\
  In (Use s x true tx) h /\ In (Use s y true ty) h /\ tx < ty /\ In x ks' /\ In y ks /\ ~ In y ks'.
Proof.
  destruct (answer2 here h19 (Use (topic 1) (near 20) true 20) (topic 1) (near 20) true 0 20) as (tb & tb' & pr & pr' & G & E & T & Es & T'); [vm_compute; reflexivity..|].
  exists here, h19, (topic 1), (near 20), 20, tb, tb', (map near [19; 18; 17; 16; 15; 14; 13; 12; 11; 10; 9; 8; 7; 6; 5; 4; 3; 2; 1]), pr, (map near [20; 19; 18; 17; 16; 15; 14; 13; 12; 11; 10; 9; 8; 7; 6; 5; 4; 3; 2]), pr', (near 19), (near 1), 1, 19.
  split; [exact G|]. split; [exact E|]. split; [rewrite T; f_equal; f_equal; vm_compute; reflexivity|]. split; [reflexivity|]. split; [exact Es|]. split; [rewrite T'; f_equal; f_equal; vm_compute; reflexivity|].
  split; [left; reflexivity|]. split; [do 18 right; left; reflexivity|]. split; [lia|]. split; [right; left; reflexivity|]. split; [do 18 right; left; reflexivity|].
  cbn [map near]. unfold near. intros H. repeat (destruct H as [H|H]; [discriminate|]). destruct H.
Qed.

(** A subject with 16 senders and 16 receivers is dropped by the next decay, at full strength. *)
Definition l16 : list Z := [1; 2; 3; 4; 5; 6; 7; 8; 9; 10; 11; 12; 13; 14; 15; 16].
Definition h32 : list call := timesteps 1 l16 (fun d t => Use (topic 1) (near d) true t) ++ timesteps 17 l16 (fun d t => Use (topic 1) (near (16 + d)) false t).
Theorem C29_kept_refuted : exists me h s tb tb' pr pr', good me (h ++ [Exhale (bucket_of s)]) /\ run (new_table me) h = Ok tb /\ held tb = false /\
  (exists ks, trail tb s true = Ok (ks, pr) /\ length ks = 16%nat) /\ 248 <= pr /\
  exhale tb (bucket_of s) = Ok tb' /\ trail tb' s true = Ok ([], pr').
Proof.
  destruct (answer here h32 (topic 1) true) as (tb & pr & E & H & T & Pr); [vm_compute; reflexivity..|].
  destruct (gone2 here h32 0 (topic 1) true tb) as (tb' & pr' & G & Es & T'); [vm_compute; reflexivity..|exact E|].
  exists here, h32, (topic 1), tb, tb', pr, pr'. split; [exact G|]. split; [exact E|]. split; [exact H|]. split; [eexists; split; [exact T|vm_compute; reflexivity]|]. split; [|split; [exact Es|exact T']].
  apply Pr. vm_compute. reflexivity.
Qed.

(** Once a bucket has 31 subjects, the next pheromone for it, even of a known subject, is refused and leaves the table
    locked: everybody else waits for ever. *)
Definition h31 (k : nat) : list call := timesteps 1 subjects31 (fun a t => Smell (topic a) (near 1) true k t).
Theorem C29_lock_refuted : exists me h c s src tb tb', good me (h ++ [c]) /\ smells_of c s src true 0 /\ In s (subjects h) /\ run (new_table me) h = Ok tb /\ held tb = false /\
  step tb c = Ok (tb', false) /\
  (forall s' prob r1 r2, snuffle tb' s' prob r1 r2 = Abort) /\ (forall i, exhale tb' i = Abort) /\
  (forall h' t, run tb' h' = Ok t -> held t = true).
Proof.
  destruct (full2 here (h31 0) (Use (topic 1) (near 1) true 32) (topic 1) (near 1) true 0 32) as (tb & tb' & G & E & H & Es & H'); [vm_compute; reflexivity..|].
  exists here, (h31 0), (Use (topic 1) (near 1) true 32), (topic 1), (near 1), tb, tb'. split; [exact G|]. split; [right; split; [reflexivity|exists 32; reflexivity]|]. split; [left; reflexivity|]. split; [exact E|]. split; [exact H|]. split; [exact Es|].
  split; [intros; unfold snuffle; rewrite H'; reflexivity|]. split; [intros; unfold exhale; rewrite H'; reflexivity|]. intros h' t. apply run_held. exact H'.
Qed.
(** ... and a decay that drops one of the 31 reads behind the array. *)
Theorem C29_decay_refuted : exists me h tb i, good me (h ++ [Exhale i]) /\ run (new_table me) h = Ok tb /\ held tb = false /\ exhale tb i = UB.
Proof.
  destruct (good_check here (h31 15) 0) as (tb & E & I & V); [vm_compute; reflexivity..|].
  exists here, (h31 15), tb, 0. split; [apply good_b_ok; vm_compute; reflexivity|]. split; [exact E|]. split; [apply I|]. eapply exhale_ub; [exact I|vm_compute; reflexivity|vm_compute; reflexivity].
Qed.

(** Two neighbours at the same distance on both sides of the node: the second one is accepted and forgotten. *)
Lemma of_match me h c s (r : bool) (f : list key -> bool) :
  (match run (new_table me) h with Ok tb => match step tb c with Ok (tb', true) => match trail tb' s r with Ok (ks, _) => f ks | _ => false end | _ => false end | _ => false end) = true ->
  exists tb tb' ks pr, run (new_table me) h = Ok tb /\ step tb c = Ok (tb', true) /\ trail tb' s r = Ok (ks, pr) /\ f ks = true.
Proof.
  destruct (run (new_table me) h) as [tb| |]; try discriminate. destruct (step tb c) as [[tb' [|]]| |] eqn:E; try discriminate. destruct (trail tb' s r) as [[ks pr]| |] eqn:T; try discriminate. intros H. exists tb, tb', ks, pr. auto.
Qed.
Theorem C29_equal_refuted : exists me s a b tb tb' ks pr, wf_key me /\ wf_key s /\ regular s /\ wf_key a /\ wf_key b /\ a <> b /\
  run (new_table me) [Use s a true 1] = Ok tb /\ step tb (Use s b true 2) = Ok (tb', true) /\ trail tb' s true = Ok (ks, pr) /\ ~ In b ks.
Proof.
  destruct (of_match (near 5) [Use (topic 1) (near 4) true 1] (Use (topic 1) (near 6) true 2) (topic 1) true (fun ks => forallb (fun k => negb (np_dhkey_equal k (near 6))) ks)) as (tb & tb' & ks & pr & E & Es & T & F); [vm_compute; reflexivity|].
  exists (near 5), (topic 1), (near 4), (near 6), tb, tb', ks, pr. repeat (split; [first [exact E|exact Es|exact T|apply wf_b_ok; reflexivity|apply regular_b_ok; vm_compute; reflexivity|discriminate]|]).
  intros H. rewrite forallb_forall in F. specialize (F _ H). vm_compute in F. discriminate.
Qed.
(** A filter from the network that claims more than 32 items stops the node when it comes twice. *)
Definition crowded : bloom := match nbf_add nbf_create (topic 1) with Ok b => set_free b 31 | _ => nbf_create end.
Theorem C29_filter_refuted : exists me b src, wf_key me /\ wf_key src /\
  (exists tb, any_run (new_table me) [Inhale (mkScent None (Some b) 1 zero_key src) 1] = Ok tb) /\
  any_run (new_table me) [Inhale (mkScent None (Some b) 1 zero_key src) 1; Inhale (mkScent None (Some b) 1 zero_key src) 2] = Abort.
Proof.
  exists here, crowded, (near 1). split; [apply wf_b_ok; reflexivity|]. split; [apply wf_b_ok; reflexivity|]. split; [|vm_compute; reflexivity].
  assert (H : match any_run (new_table here) [Inhale (mkScent None (Some crowded) 1 zero_key (near 1)) 1] with Ok _ => true | _ => false end = true) by (vm_compute; reflexivity).
  revert H. generalize (any_run (new_table here) [Inhale (mkScent None (Some crowded) 1 zero_key (near 1)) 1]). intros [t| |] H; try discriminate. eauto.
Qed.

(** * The hypotheses are met: two subjects in one bucket, one with two sources, decays in between *)
Definition calm_b (s : key) (tb : table) (c : call) : bool :=
  match buckets tb (bucket_of s) with
  | None => true
  | Some b => (kept_in b <=? 254) && (match c with Exhale i => negb (i =? bucket_of s) || forallb (fun e => negb (kept e =? 32)) (ents b) | _ => true end)
  end.
Lemma calm_b_ok s tb c : calm_b s tb c = true -> calm s tb c.
Proof.
  unfold calm_b, calm. intros H b E. rewrite E in H. apply andb_true_iff in H. destruct H as [H1 H2]. split; [lia|]. intros ->. rewrite Z.eqb_refl in H2. cbn [negb orb] in H2. rewrite forallb_forall in H2. intros e He. specialize (H2 e He). lia.
Qed.
Fixpoint along_b (f : table -> call -> bool) (tb : table) (h : list call) : bool :=
  match h with [] => true | c :: r => f tb c && match step tb c with Ok (tb', _) => along_b f tb' r | _ => true end end.
Lemma along_b_ok s h : forall tb, along_b (calm_b s) tb h = true -> along (calm s) tb h.
Proof. induction h as [|c h IH]; intros tb; cbn [along_b along]; [auto|]. intros H. apply andb_true_iff in H. destruct H as [H1 H2]. split; [apply calm_b_ok; auto|]. destruct (step tb c) as [[t x]| |]; auto. Qed.
Definition hx : list call := [Use (topic 2) (near 2) false 2; Exhale 0; Use (topic 1) (near 3) true 4].
Example C29_good_case : good here (Use (topic 1) (near 1) true 1 :: hx).
Proof. apply good_b_ok. vm_compute. reflexivity. Qed.
Example C29_few_case : forall l i, NoDup l -> Forall (fun s => bucket_of s = i /\ In s (subjects (Use (topic 1) (near 1) true 1 :: hx))) l -> (length l <= 30)%nat.
Proof.
  intros l i N F. assert (length l <= length (subjects (Use (topic 1) (near 1) true 1 :: hx)))%nat; [|cbn in *; lia]. apply NoDup_incl_length; auto. intros x Hx. rewrite Forall_forall in F. apply (F x Hx).
Qed.
Example C29_calm_case : along (calm (topic 1)) (new_table here) (Use (topic 1) (near 1) true 1 :: hx).
Proof. apply along_b_ok. vm_compute. reflexivity. Qed.
Example C29_kept_case : exists tb ks pr, run (new_table here) (Use (topic 1) (near 1) true 1 :: hx) = Ok tb /\ trail tb (topic 1) true = Ok (ks, pr) /\ ks <> [] /\ 120 <= pr.
Proof.
  destruct (C29_total here _ C29_good_case C29_few_case) as (tb & E & H).
  destruct (C29_kept_partial here [] (Use (topic 1) (near 1) true 1) hx (topic 1) (near 1) true 0 (new_table here) tb C29_good_case) as (ks & pr & T & N & P); auto.
  - right. split; auto. exists 1. reflexivity.
  - intros b Q. discriminate.
  - exact C29_calm_case.
  - vm_compute. discriminate.
  - exists tb, ks, pr. split; [exact E|]. split; [exact T|]. split; [exact N|]. exact P.
Qed.

Print Assumptions C29_bounded.
Print Assumptions C29_total.
Print Assumptions C29_found.
Print Assumptions C29_sound.
Print Assumptions C29_kept_partial.
Print Assumptions C29_forgotten.
Print Assumptions C29_replace_partial.
Print Assumptions C29_oldest_refuted.
Print Assumptions C29_kept_refuted.
Print Assumptions C29_lock_refuted.
Print Assumptions C29_decay_refuted.
Print Assumptions C29_equal_refuted.
Print Assumptions C29_filter_refuted.
