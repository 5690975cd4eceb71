(** Histories of the table, followed on the machine of [Pheromone_Sim]. *)
From Verif Require Import Base Dhkey_Model Dhkey_Proofs Bloom_Model Bloom_Spec Bloom_Std Bloom_Decay Bloom_Count Bloom_Nbf Pheromone_Model Pheromone_Spec Pheromone_Filter Pheromone_Proofs Pheromone_Sim.
From Coq Require Import Permutation.

Definition strength (k : nat) : Z := Nat.iter k faded 128.
Lemma strength_S k : strength (S k) = faded (strength k). Proof. reflexivity. Qed.
Lemma strength_eq k : strength k = Z.max 0 (128 - 8 * Z.of_nat k).
Proof. induction k as [|k IH]; [reflexivity|]. rewrite strength_S, IH. unfold faded. destruct (Z.ltb_spec 8 (Z.max 0 (128 - 8 * Z.of_nat k))); lia. Qed.
Lemma fade_ok s k : forall a b, Ent s a 1 b -> exists b', fade k b = Ok b' /\ Ent s (Nat.iter k faded a) 1 b'.
Proof.
  induction k as [|k IH]; intros a b En; cbn [fade]; [eauto|]. destruct (ent_age_dec _ _ _ _ En) as (b1 & E & En1). rewrite E. cbn [obind]. destruct (IH _ _ En1) as (b' & E' & En'). exists b'. split; auto.
  replace (Nat.iter (S k) faded a) with (Nat.iter k faded (faded a)); auto. clear. induction k as [|k IH]; [reflexivity|]. cbn [Nat.iter nat_rect] in *. f_equal. exact IH.
Qed.
(** what a call smells *)
Definition smells (c : call) : option (key * key * bool * nat * Z) :=
  match c with Smell s src r k now => Some (s, src, r, k, now) | Use s src r now => Some (s, src, r, 0%nat, now) | Exhale _ => None end.
Section Hist.
  Variables (me : key) (K : list key).
  Hypotheses (Wme : wf_key me) (WK : Forall wf_key K) (NZ : Forall (fun k => k <> zero_key) K) (AK : apart me K).
  Definition astep (ab : Z -> list aent) (c : call) : Z -> list aent :=
    match c with
    | Exhale i => set_ab ab i (aexhale (ab i))
    | Smell s src r k now => if strength k =? 0 then ab else set_ab ab (bucket_of s) (ainhale me s (strength k) r src now (ab (bucket_of s)))
    | Use s src r now => set_ab ab (bucket_of s) (ainhale me s 128 r src now (ab (bucket_of s)))
    end.
  Fixpoint arun (ab : Z -> list aent) (h : list call) : Z -> list aent := match h with [] => ab | c :: r => arun (astep ab c) r end.
  Definition room (ab : Z -> list aent) (c : call) : Prop :=
    match c with
    | Exhale i => (length (ab i) <= 30)%nat \/ forallb alive (ab i) = true
    | Smell s _ _ k _ => strength k = 0 \/ (length (ab (bucket_of s)) < 31)%nat
    | Use s _ _ _ => (length (ab (bucket_of s)) < 31)%nat
    end.
  Definition fine (c : call) : Prop :=
    match smells c with Some (s, src, _, _, _) => wf_key s /\ regular s /\ In src K | None => True end.
  Definition at_or_after (b : Z) (c : call) : Prop := match smells c with Some (_, _, _, _, now) => b <= now | None => True end.
  Definition next (b : Z) (c : call) : Z := match smells c with Some (_, _, _, _, now) => now + 1 | None => b end.
  Lemma smell_scent tb p s src r a0 now : wf_key s -> regular s -> Ent s a0 1 p ->
    obind (nbf_intersect_age p p) (fun age => if age =? 0 then Ok (tb, false)
      else if position s r <? 0 then if -257 <=? position s r then inhale tb (mkScent None (Some p) (position s r) src zero_key) now else Abort
      else if (0 <? position s r) && (position s r <=? 257) then inhale tb (mkScent None (Some p) (position s r) zero_key src) now else Abort) =
    if a0 =? 0 then Ok (tb, false) else inhale tb (as_scent p s src r) now.
  Proof.
    intros W Rg En. destruct (ent_intersect_age p _ _ s a0 1 p W Rg (en_ns _ _ _ _ En) En) as (v & E & Z0).
    { intros c Hc. apply has_in in Hc. unfold mark. rewrite Hc. lia. }
    rewrite E. cbn [obind]. change (1 mod 32) with 1 in Z0. destruct (Z.eqb_spec v 0), (Z.eqb_spec a0 0); try lia; auto. destruct (position_sign s r W) as (P & Pi & Pr).
    destruct r.
    - replace (position s true <? 0) with false by lia. replace ((0 <? position s true) && (position s true <=? 257)) with true by lia. reflexivity.
    - replace (position s false <? 0) with true by lia. replace (-257 <=? position s false) with true by lia. reflexivity.
  Qed.
  Lemma step_smell tb s src r k now : wf_key s -> regular s -> exists p, Ent s (strength k) 1 p /\
    step tb (Smell s src r k now) = if strength k =? 0 then Ok (tb, false) else inhale tb (as_scent p s src r) now.
  Proof.
    intros W Rg. cbn [step]. destruct (ent_new s W Rg) as (b & E & En). rewrite E. cbn [obind]. unfold in_pheromone. destruct (fade_ok s k 128 b En) as (p & Ep & Enp). rewrite Ep. cbn [obind].
    exists p. split; [exact Enp|]. apply smell_scent; auto.
  Qed.
  Lemma step_use tb s src r now : wf_key s -> regular s -> exists p, Ent s 128 1 p /\
    step tb (Use s src r now) = inhale tb (as_scent p s src r) now.
  Proof.
    intros W Rg. cbn [step]. unfold inhale_target. destruct (ent_new s W Rg) as (b & E & En). rewrite E. cbn [obind]. exists b. split; auto. unfold as_scent.
    destruct r; cbn [negb orb andb]; destruct (inhale tb _ now) as [[]| |]; reflexivity.
  Qed.
  Lemma set_ab_same ab i l : set_ab ab i l i = l. Proof. unfold set_ab. rewrite Z.eqb_refl. reflexivity. Qed.
  Lemma set_ab_other ab i l j : j <> i -> set_ab ab i l j = ab j. Proof. unfold set_ab. intros. replace (j =? i) with false by lia. reflexivity. Qed.
  (** one call: if there is room it follows the machine; otherwise an inhale leaves the lock held and a decay reads behind the array *)
  Lemma step_room b ab tb c : Inv me K b ab tb -> fine c -> at_or_after b c -> room ab c ->
    exists tb' ret, step tb c = Ok (tb', ret) /\ Inv me K (next b c) (astep ab c) tb' /\
      (forall i, Vis ab tb i -> (forall s src r k now, smells c = Some (s, src, r, k, now) -> bucket_of s = i -> total (astep ab c i) <= 255) -> Vis (astep ab c) tb' i) /\
      (forall s src r k now, smells c = Some (s, src, r, k, now) -> strength k <> 0 -> ret = true /\ (total (astep ab c (bucket_of s)) <= 255 -> Vis (astep ab c) tb' (bucket_of s))).
  Proof.
    intros I F T R.
    assert (Gen : forall s src r a0 p now, wf_key s -> regular s -> In src K -> 0 < a0 -> Ent s a0 1 p -> b <= now -> (length (ab (bucket_of s)) < 31)%nat ->
      exists tb', inhale tb (as_scent p s src r) now = Ok (tb', true) /\ Inv me K (now + 1) (set_ab ab (bucket_of s) (ainhale me s a0 r src now (ab (bucket_of s)))) tb' /\
        (forall i, Vis ab tb i -> (bucket_of s = i -> total (set_ab ab (bucket_of s) (ainhale me s a0 r src now (ab (bucket_of s))) i) <= 255) -> Vis (set_ab ab (bucket_of s) (ainhale me s a0 r src now (ab (bucket_of s)))) tb' i) /\
        (total (set_ab ab (bucket_of s) (ainhale me s a0 r src now (ab (bucket_of s))) (bucket_of s)) <= 255 -> Vis (set_ab ab (bucket_of s) (ainhale me s a0 r src now (ab (bucket_of s)))) tb' (bucket_of s))).
    { intros s src r a0 p now W Rg HK Ha En Hb HL. destruct (inhale_ok me K Wme WK NZ AK now ab tb p s a0 r src (inv_later me K b now ab tb I Hb) W Rg Ha En HK) as [Ok1 _].
      destruct (Ok1 HL) as (tb' & E & I' & V & Oth & _). exists tb'. split; auto. split; auto. rewrite set_ab_same. split; [|exact V]. intros i Vi Ti. destruct (Z.eqb_spec i (bucket_of s)) as [Ei|Ei].
      - subst i. apply V. rewrite set_ab_same in Ti. auto.
      - unfold Vis in *. rewrite (Oth i Ei). rewrite (set_ab_other _ _ _ _ Ei). exact Vi. }
    destruct c as [s src r k now|s src r now|i]; cbn [fine smells at_or_after next] in *; unfold fine, at_or_after, next in *; cbn [smells] in *.
    - destruct F as (W & Rg & HK). destruct (step_smell tb s src r k now W Rg) as (p & En & E). rewrite E. cbn [astep room] in *. destruct (Z.eqb_spec (strength k) 0) as [Z0|Z0].
      + exists tb, false. split; auto. split; [apply (inv_later me K b); auto; lia|]. split; [auto|]. intros. exfalso. congruence.
      + pose proof (en_a _ _ _ _ En) as HA. destruct R as [R|R]; [congruence|]. destruct (Gen s src r (strength k) p now W Rg HK) as (tb' & E' & I' & V1 & V2); auto; [lia|]. exists tb', true. split; auto. split; auto. split.
        * intros i Vi Ti. apply V1; auto. intros Hi. eapply Ti; eauto.
        * intros s' src' r' k' now' Eq Zk. injection Eq as <- <- <- <- <-. split; auto.
    - destruct F as (W & Rg & HK). destruct (step_use tb s src r now W Rg) as (p & En & E). rewrite E. cbn [astep room] in *.
      destruct (Gen s src r 128 p now W Rg HK) as (tb' & E' & I' & V1 & V2); auto; [lia|]. exists tb', true. split; auto. split; auto. split.
      + intros i Vi Ti. apply V1; auto. intros Hi. eapply Ti; eauto.
      + intros s' src' r' k' now' Eq Zk. injection Eq as <- <- <- <- <-. split; auto.
    - cbn [step astep room] in *. destruct (exhale_ok me K b ab tb i I R) as (tb' & E & I' & V & Oth). rewrite E. cbn [obind]. exists tb', true. split; auto. split; auto. split; [|intros; discriminate].
      intros j Vj _. destruct (Z.eqb_spec j i) as [Ej|Ej]; [subst j; auto|]. unfold Vis in *. rewrite (Oth j Ej), (set_ab_other _ _ _ _ Ej). exact Vj.
  Qed.
  Lemma step_full b ab tb c : Inv me K b ab tb -> fine c -> at_or_after b c -> ~ room ab c ->
    match smells c with
    | Some _ => exists tb', step tb c = Ok (tb', false) /\ held tb' = true
    | None => step tb c = UB
    end.
  Proof.
    intros I F T R. unfold fine, at_or_after in *. destruct c as [s src r k now|s src r now|i]; cbn [smells room] in *.
    - destruct F as (W & Rg & HK). destruct (step_smell tb s src r k now W Rg) as (p & En & E). rewrite E. destruct (Z.eqb_spec (strength k) 0) as [Z0|Z0]; [tauto|]. pose proof (en_a _ _ _ _ En).
      apply (inhale_ok me K Wme WK NZ AK now ab tb p s (strength k) r src (inv_later me K b now ab tb I T) W Rg ltac:(lia) En HK). pose proof (iv_len _ _ _ _ _ I (bucket_of s)). lia.
    - destruct F as (W & Rg & HK). destruct (step_use tb s src r now W Rg) as (p & En & E). rewrite E.
      apply (inhale_ok me K Wme WK NZ AK now ab tb p s 128 r src (inv_later me K b now ab tb I T) W Rg ltac:(lia) En HK). pose proof (iv_len _ _ _ _ _ I (bucket_of s)). lia.
    - cbn [step]. rewrite (exhale_ub me K b ab tb i I); auto.
      + pose proof (iv_len _ _ _ _ _ I i). lia.
      + destruct (forallb alive (ab i)); [tauto|auto].
  Qed.
  Lemma room_dec ab c : room ab c \/ ~ room ab c.
  Proof.
    destruct c as [s src r k now|s src r now|i]; cbn [room]; [destruct (Z.eq_dec (strength k) 0); [tauto|]; destruct (Nat.lt_ge_cases (length (ab (bucket_of s))) 31); [tauto|right; lia]| |].
    - destruct (Nat.lt_ge_cases (length (ab (bucket_of s))) 31); [tauto|right; lia].
    - destruct (forallb alive (ab i)); [tauto|]. destruct (Nat.le_gt_cases (length (ab i)) 30); [tauto|right]. intros [H'|H']; [lia|discriminate].
  Qed.
  Lemma inhale_held tb sc now tb' r : held tb = true -> inhale tb sc now = Ok (tb', r) -> held tb' = true.
  Proof.
    intros H. unfold inhale. destruct (match subject sc with Some k => _ | None => _ end) as [[p|]| |]; try discriminate; [|intros [= <- <-]; auto]. destruct (pos sc =? 0); [discriminate|]. cbn zeta. destruct (negb _); [discriminate|]. rewrite H. discriminate.
  Qed.
  Lemma step_held tb c tb' r : held tb = true -> step tb c = Ok (tb', r) -> held tb' = true.
  Proof.
    intros H. destruct c as [s src rr k now|s src rr now|i]; cbn [step].
    - destruct (nbf_add nbf_create s) as [p| |]; cbn [obind]; try discriminate. unfold in_pheromone. destruct (fade k p) as [q| |]; cbn [obind]; try discriminate. destruct (nbf_intersect_age q q) as [a| |]; cbn [obind]; try discriminate.
      destruct (a =? 0); [intros [= <- <-]; auto|]. destruct (_ <? 0); [destruct (-257 <=? _); [apply inhale_held; auto|discriminate]|]. destruct (_ && _); [apply inhale_held; auto|discriminate].
    - unfold inhale_target. destruct (nbf_add nbf_create s) as [p| |]; cbn [obind]; try discriminate. destruct (inhale _ _ _) as [[t x]| |] eqn:E; cbn [obind]; try discriminate. intros [= <- <-]. eapply inhale_held; eauto.
    - unfold exhale. rewrite H. discriminate.
  Qed.
  Lemma run_held h : forall tb tb', held tb = true -> run tb h = Ok tb' -> held tb' = true.
  Proof.
    induction h as [|c h IH]; intros tb tb' H; cbn [run]; [intros [= <-]; auto|]. destruct (step tb c) as [[t x]| |] eqn:E; cbn [obind]; try discriminate. apply IH. eapply step_held; eauto.
  Qed.
  Fixpoint timed (b : Z) (h : list call) : Prop := match h with [] => True | c :: r => at_or_after b c /\ timed (next b c) r end.
  Fixpoint last_time (b : Z) (h : list call) : Z := match h with [] => b | c :: r => last_time (next b c) r end.
  (** a run that leaves the lock free followed the machine at every step *)
  Lemma run_inv h : forall b ab tb tb', Inv me K b ab tb -> Forall fine h -> timed b h -> run tb h = Ok tb' -> held tb' = false ->
    Inv me K (last_time b h) (arun ab h) tb'.
  Proof.
    induction h as [|c h IH]; intros b ab tb tb' I F T E H; cbn [run arun last_time timed] in *; [injection E as <-; auto|]. inversion F as [|? ? Fc F']; subst. destruct T as [Tc T].
    destruct (room_dec ab c) as [R|R].
    - destruct (step_room b ab tb c I Fc Tc R) as (t1 & ret & E1 & I1 & _). rewrite E1 in E. cbn [obind] in E. eapply IH; eauto.
    - pose proof (step_full b ab tb c I Fc Tc R) as S. destruct (smells c).
      + destruct S as (t1 & E1 & H1). rewrite E1 in E. cbn [obind] in E. pose proof (run_held h t1 tb' H1 E). congruence.
      + rewrite S in E. discriminate.
  Qed.
  (** ... and every step had room *)
  Lemma run_room h : forall b ab tb tb', Inv me K b ab tb -> Forall fine h -> timed b h -> run tb h = Ok tb' -> held tb' = false ->
    forall h1 c h2, h = h1 ++ c :: h2 -> room (arun ab h1) c.
  Proof.
    induction h as [|c h IH]; intros b ab tb tb' I F T E H h1 c' h2 Eq; [destruct h1; discriminate|]. cbn [run timed] in *. inversion F as [|? ? Fc F']; subst. destruct T as [Tc T].
    destruct (room_dec ab c) as [R|R].
    - destruct (step_room b ab tb c I Fc Tc R) as (t1 & ret & E1 & I1 & _). rewrite E1 in E. cbn [obind] in E. destruct h1 as [|c1 h1]; cbn [app] in Eq; injection Eq as <- Eq; cbn [arun]; [auto|]. eapply IH; eauto.
    - pose proof (step_full b ab tb c I Fc Tc R) as S. destruct (smells c).
      + destruct S as (t1 & E1 & H1). rewrite E1 in E. cbn [obind] in E. pose proof (run_held h t1 tb' H1 E). congruence.
      + rewrite S in E. discriminate.
  Qed.
  Lemma run_ok h : forall b ab tb, Inv me K b ab tb -> Forall fine h -> timed b h -> (forall h1 c h2, h = h1 ++ c :: h2 -> room (arun ab h1) c) ->
    exists tb', run tb h = Ok tb' /\ Inv me K (last_time b h) (arun ab h) tb'.
  Proof.
    induction h as [|c h IH]; intros b ab tb I F T R; cbn [run arun last_time timed] in *; [eauto|]. inversion F as [|? ? Fc F']; subst. destruct T as [Tc T].
    destruct (step_room b ab tb c I Fc Tc (R [] c h eq_refl)) as (t1 & ret & E1 & I1 & _). rewrite E1. cbn [obind]. apply IH; auto. intros h1 c' h2 Eq. apply (R (c :: h1) c' h2). cbn [app]. congruence.
  Qed.
  Lemma arun_app h1 h2 : forall ab, arun ab (h1 ++ h2) = arun (arun ab h1) h2.
  Proof. induction h1 as [|c h1 IH]; intros ab; cbn [app arun]; auto. Qed.
  Lemma timed_app h1 h2 : forall b, timed b (h1 ++ h2) <-> timed b h1 /\ timed (last_time b h1) h2.
  Proof. induction h1 as [|c h1 IH]; intros b; cbn [app timed last_time]; [tauto|]. rewrite IH. tauto. Qed.
  (** * Facts about the machine *)
  Lemma in_ainhale s a0 r src now l e : In e (ainhale me s a0 r src now l) -> (exists e0, In e0 l /\ e = aupd me s a0 r src now e0) \/ (e = anew s a0 r src now /\ existsb (fun e => same_b (asub e) s) l = false).
  Proof.
    unfold ainhale. destruct (existsb _ l) eqn:Ex; intros H.
    - left. apply in_map_iff in H. destruct H as (e0 & <- & H0). eauto.
    - apply in_app_or in H. destruct H as [H|[<-|[]]]; [|right; auto]. left. exists e. split; auto. unfold aupd. replace (same_b (asub e) s) with false; auto. symmetry. apply not_true_is_false. intros Q.
      assert (existsb (fun e => same_b (asub e) s) l = true) by (apply existsb_exists; eauto). congruence.
  Qed.
  Lemma ainhale_keeps s a0 r src now l e : In e l -> In (aupd me s a0 r src now e) (ainhale me s a0 r src now l).
  Proof.
    intros H. unfold ainhale. destruct (existsb _ l) eqn:Ex; [apply in_map; auto|]. apply in_or_app. left. unfold aupd. replace (same_b (asub e) s) with false; auto. symmetry. apply not_true_is_false. intros Q.
    assert (existsb (fun e => same_b (asub e) s) l = true) by (apply existsb_exists; eauto). congruence.
  Qed.
  Lemma distinct_one l e e' s : distinct l -> In e l -> In e' l -> same_cells (asub e) s -> same_cells (asub e') s -> e = e'.
  Proof.
    induction 1 as [|x l F _ IH]; intros H H' S S'; [destruct H|]. rewrite Forall_forall in F. destruct H as [->|H], H' as [->|H']; auto; exfalso.
    - apply (F e' H'). eapply same_trans; eauto using same_sym.
    - apply (F e H). eapply same_trans; eauto using same_sym.
  Qed.
  Lemma found_one l e k fs fr : distinct l -> In e l -> same_cells k (asub e) -> found l k fs fr = map peer (if fr then arecv e else if fs then asend e else []).
  Proof.
    intros D H S. induction D as [|x l F D IH]; [destruct H|]. unfold found. cbn [flat_map]. fold (found l k fs fr). rewrite Forall_forall in F. destruct H as [->|H].
    - replace (same_b k (asub e)) with true by (symmetry; apply same_b_iff; auto). replace (found l k fs fr) with (@nil key); [rewrite app_nil_r; auto|]. symmetry. unfold found.
      assert (G : forall y, In y l -> same_b k (asub y) = false). { intros y Hy. apply not_true_is_false. intros Q. apply same_b_iff in Q. apply (F y Hy). eapply same_trans; eauto using same_sym. }
      clear - G. induction l as [|y l IH]; [reflexivity|]. cbn [flat_map]. rewrite (G y (or_introl eq_refl)). apply IH. intros z Hz. apply G. right. auto.
    - replace (same_b k (asub x)) with false; [apply IH; auto|]. symmetry. apply not_true_is_false. intros Q. apply same_b_iff in Q. apply (F e H). eapply same_trans; eauto using same_sym.
  Qed.
  Lemma found_none l k fs fr : (forall e, In e l -> ~ same_cells k (asub e)) -> found l k fs fr = [].
  Proof.
    induction l as [|x l IH]; intros H; [reflexivity|]. unfold found. cbn [flat_map]. fold (found l k fs fr). replace (same_b k (asub x)) with false; [apply IH; intros e He; apply H; right; auto|].
    symmetry. apply not_true_is_false. intros Q. apply same_b_iff in Q. apply (H x (or_introl eq_refl) Q).
  Qed.
  Lemma same_dec s t : same_cells s t \/ ~ same_cells s t.
  Proof. destruct (same_b s t) eqn:E; [left; apply same_b_iff; auto|right; intros H; apply same_b_iff in H; congruence]. Qed.
  Lemma found_cases l k fs fr : distinct l -> (exists e, In e l /\ same_cells k (asub e) /\ found l k fs fr = map peer (if fr then arecv e else if fs then asend e else [])) \/ found l k fs fr = [].
  Proof.
    intros D. destruct (existsb (fun e => same_b k (asub e)) l) eqn:E.
    - apply existsb_exists in E. destruct E as (e & He & S). apply same_b_iff in S. left. exists e. split; auto. split; auto. apply found_one; auto.
    - right. apply found_none. intros e He S. assert (existsb (fun e => same_b k (asub e)) l = true) by (apply existsb_exists; exists e; split; auto; apply same_b_iff; auto). congruence.
  Qed.
  Lemma total_upd now i s a0 r src l : Forall (AE K now i) l -> distinct l -> In src K -> total (ainhale me s a0 r src now l) <= total l + 1.
  Proof.
    intros FA D HK. unfold ainhale. destruct (existsb _ l) eqn:Ex.
    2:{ rewrite total_app. cbn [total fold_right]. assert (U1 : used (anew s a0 r src now) = 1) by (destruct r; reflexivity). lia. }
    clear Ex. induction D as [|x l F D IH]; [cbn; lia|]. inversion FA as [|? ? A FA']; subst. cbn [map total fold_right]. fold (total (map (aupd me s a0 r src now) l)). fold (total l). specialize (IH FA').
    assert (Ux : used (aupd me s a0 r src now x) <= used x + 1).
    { unfold aupd. destruct (same_b (asub x) s); [|lia]. 
      assert (G : forall ls, Lst K now ls -> (length (upd_list me ls src now) <= S (length ls))%nat).
      { intros ls HL. destruct (upd_lst me K Wme WK AK now ls src HL HK) as (L & _ & Inc & _). pose proof (NoDup_incl_length (ls_nodup _ _ _ L) Inc) as Q. cbn [length] in Q. rewrite !map_length in Q. exact Q. }
      pose proof (G _ (ae_send _ _ _ _ A)). pose proof (G _ (ae_recv _ _ _ _ A)). unfold used. cbn [asend arecv]. destruct r; lia. }
    destruct (same_b (asub x) s) eqn:S; [|unfold aupd at 1; rewrite S; lia].
    assert (G : map (aupd me s a0 r src now) l = l).
    { apply same_b_iff in S. rewrite Forall_forall in F. clear - F S. induction l as [|y l IH]; [reflexivity|]. cbn [map]. rewrite IH by (intros z Hz; apply F; right; auto). f_equal. unfold aupd.
      replace (same_b (asub y) s) with false; auto. symmetry. apply not_true_is_false. intros Q. apply same_b_iff in Q. apply (F y (or_introl eq_refl)). eapply same_trans; eauto using same_sym. }
    rewrite G in *. lia.
  Qed.
End Hist.
