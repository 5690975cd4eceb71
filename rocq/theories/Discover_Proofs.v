From Verif Require Import Base Dhkey_Model Dhkey_Proofs Bloom_Model Pheromone_Model Pheromone_Spec Bloom_Spec Bloom_Decay Bloom_Count Bloom_Nbf Pheromone_Filter Pheromone_Proofs Pheromone_Sim Pheromone_Hist Pheromone_Facts Pheromone_Props Data_Model Out_Model Out_Spec Out_Proofs Out_Props Discover_Model.

(** the newest source of a list survives a decay *)
Lemma thin_keeps l src now : NoDup (map peer l) -> In (mkDetail src now) l -> Forall (fun x => x = mkDetail src now \/ ts x < now) l -> In (mkDetail src now) (athin l).
Proof.
  intros N I F. unfold athin. destruct (Z.gtb_spec (Z.of_nat (length l)) 1) as [L|L]; [|exact I]. destruct l as [|y r]; [destruct I|].
  destruct (oldest_spec y r) as (l1 & x & l2 & E & -> & Q).
  assert (X : x <> mkDetail src now).
  { intros ->. destruct Q as [(-> & E1 & Q)|[Q _]].
    - subst y. destruct r as [|z r]; [cbn in L; lia|]. inversion Q; subst. inversion F as [|? ? _ F']; subst. inversion F' as [|? ? [->|Fz] _]; subst.
      + cbn [map] in N. inversion N as [|? ? Ni _]. apply Ni. left. reflexivity.
      + cbn [ts] in *. lia.
    - cbn [ts] in Q. inversion F as [|? ? [->|Fy] _]; subst; cbn [ts] in *; lia. }
  rewrite E in I. apply in_app_iff in I as [I|[I|I]]; [apply in_app_iff; left; exact I | congruence | apply in_app_iff; right; exact I].
Qed.
(** and is in the list after it was smelled *)
Lemma upd_newest me K l src now : wf_key me -> Forall wf_key K -> apart me K -> Lst K now l -> In src K ->
  let l' := upd_list me l src now in NoDup (map peer l') /\ In (mkDetail src now) l' /\ Forall (fun x => x = mkDetail src now \/ ts x < now) l'.
Proof.
  intros Wm WK A HL HK l'. destruct (upd_lst me K Wm WK A now l src HL HK) as (U1 & U2 & _). split; [apply U1|].
  assert (F : Forall (fun x => x = mkDetail src now \/ ts x < now) l').
  { destruct (remove_lst me K WK A now l src HL HK) as (b & l1 & E & HL1 & NI & _). unfold l', upd_list. rewrite E. cbn [snd]. cbn zeta.
    assert (F1 : Forall (fun x => x = mkDetail src now \/ ts x < now) l1) by (eapply Forall_impl; [|exact (ls_ts _ _ _ HL1)]; auto).
    assert (F2 : Forall (fun x => x = mkDetail src now \/ ts x < now) (insert_dhkey me l1 src now)).
    { unfold insert_dhkey. destruct (_ <? 0); [apply Forall_app; split; [exact F1 | repeat constructor; auto]|]. destruct (0 <? _); [constructor; auto|auto]. }
    destruct (_ >? 19); [|exact F2]. destruct (insert_dhkey me l1 src now) as [|y r] eqn:Q; [constructor|].
    destruct (oldest_spec y r) as (a & x & c & E1 & -> & _). rewrite E1 in F2. apply Forall_app in F2 as [F2 F3]. inversion F3; subst. apply Forall_app. auto. }
  split; [|exact F]. apply in_map_iff in U2 as (x & Ex & Ix). fold l' in Ix. rewrite Forall_forall in F. destruct (F x Ix) as [->|Hx]; [exact Ix|].
  exfalso. clear F. revert Ix Hx Ex. unfold l', upd_list. destruct (remove_lst me K WK A now l src HL HK) as (b & l1 & E & HL1 & NI & _). rewrite E. cbn [snd]. cbn zeta.
  assert (G : forall x, In x (insert_dhkey me l1 src now) -> ts x < now -> peer x <> src).
  { intros z Hz Tz Pz. unfold insert_dhkey in Hz. assert (N1 : ~ In z l1) by (intros Q; apply NI; rewrite <- Pz; apply in_map; exact Q).
    destruct (_ <? 0); [apply in_app_iff in Hz as [Hz|[<-|[]]]; [tauto | cbn in Tz; lia]|]. destruct (0 <? _); [destruct Hz as [<-|Hz]; [cbn in Tz; lia | tauto] | tauto]. }
  destruct (_ >? 19); [|intros; eapply G; eauto]. destruct (insert_dhkey me l1 src now) as [|y r] eqn:Q; [intros []|].
  destruct (oldest_spec y r) as (a & z & c & E1 & -> & _). intros Ix Hx Ex. apply (G x); auto. rewrite E1. apply in_app_iff in Ix. apply in_app_iff. destruct Ix; [left|right; right]; auto.
Qed.

Lemma trail_back me h s prev r now bucket tb tb' : good me (h ++ [Use s prev r now; Exhale bucket]) ->
  Pheromone_Spec.run (new_table me) h = Ok tb -> Pheromone_Spec.run tb [Use s prev r now; Exhale bucket] = Ok tb' -> held tb' = false ->
  (forall b, buckets tb (bucket_of s) = Some b -> (length (ents b) <= 30)%nat) -> along (calm s) tb [Use s prev r now; Exhale bucket] ->
  exists ks pr, trail tb' s r = Ok (ks, pr) /\ In prev ks /\ 120 <= pr.
Proof.
  intros G E E' H' Rm Al. pose proof (held_before _ _ _ E' H') as H. set (c := Use s prev r now) in *. set (h' := [Exhale bucket]).
  assert (Sm : smells_of c s prev r 0) by (right; split; [reflexivity | exists now; reflexivity]).
  destruct Al as [Q Al]. destruct (smell_effect me h c h' s prev r 0 tb G Sm ltac:(lia) E H) as (t1 & now' & e & Ec & E1 & _ & I & V & He & S & Ag & Src & Cs).
  { intros b Hb. split; [eauto|]. apply (Q b Hb). }
  cbn [smells c] in Ec. injection Ec as <-. cbn [Pheromone_Spec.run] in E'. rewrite E1 in E', Al. cbn [obind] in E'.
  destruct (good_mid me h (c :: h') tb G E H) as (I0 & C & F & T). inversion F as [|? ? Fc F']; subst. cbn [timed] in T. destruct T as [Tc T].
  assert (Nx : next (last_time (start (h ++ c :: h')) h) c = now + 1) by reflexivity. rewrite Nx in T.
  pose proof (good_cons_wf _ _ _ _ _ _ _ _ _ G (eq_refl : smells c = Some (s, prev, r, 0%nat, now))) as (Ws & Rs & HK).
  assert (Dc : decays (bucket_of s) h' <= 1) by (unfold decays, h'; cbn [filter]; destruct (_ =? _); cbn; lia). assert (Dn : 0 <= decays (bucket_of s) h') by (unfold decays; lia).
  destruct (keep_run me _ C s r h' (now + 1) _ t1 tb' (128 - 8 * Z.of_nat 0) I F' T E' H' Al V ltac:(lia) ltac:(lia)) as [(e2 & He2 & S2 & Ag2 & L2) V2].
  { exists e. repeat (split; auto). destruct (alist e r); [destruct Src|cbn; lia]. }
  assert (I2 : Inv me (sources (h ++ c :: h')) (last_time (now + 1) h') (arun me (arun me (fun _ => []) (h ++ [c])) h') tb') by (destruct C as [C1 C2 C3 C4]; eapply run_inv; eauto).
  (* the list of the entry before the decay *)
  assert (New : NoDup (map peer (alist e r)) /\ In (mkDetail prev now) (alist e r) /\ Forall (fun x => x = mkDetail prev now \/ ts x < now) (alist e r)).
  { destruct C as [C1 C2 C3 C4]. destruct Cs as [No|(e0 & _ & _ & -> & _ & HL)]; [|apply (upd_newest me (sources (h ++ c :: h'))); auto].
    rewrite arun_app in He. cbn [arun] in He. unfold c in He. cbn [astep] in He. rewrite set_ab_same in He. unfold ainhale in He.
    destruct (existsb _ _) eqn:Ex in He.
    - exfalso. apply existsb_exists in Ex as (x & Hx & Sx). apply (No x Hx). apply same_sym. apply same_b_iff. exact Sx.
    - apply in_app_iff in He as [He|[<-|[]]]; [exfalso; exact (No e He S)|]. destruct r; cbn [alist anew arecv asend map peer]; (split; [repeat constructor; intros []|]; split; [left; reflexivity | repeat constructor; auto]). }
  destruct New as (N1 & N2 & N3).
  assert (P : In prev (map peer (alist e2 r))).
  { unfold h' in He2. cbn [arun astep] in He2. unfold set_ab in He2. destruct (Z.eqb_spec (bucket_of s) bucket) as [Eb|Eb].
    - rewrite <- Eb in He2. unfold aexhale in He2. apply in_map_iff in He2 as (e0 & <- & He0). apply filter_In in He0 as [He0 _]. cbn [asub] in S2.
      assert (e0 = e). { pose proof (iv_distinct _ _ _ _ _ I (bucket_of s)) as D. destruct (ForallOrdPairs_In D e0 e He0 He) as [X|[X|X]]; auto; exfalso; apply X; eauto using same_trans, same_sym. }
      subst e0. unfold alist in *. destruct r; cbn [arecv asend]; apply in_map_iff; exists (mkDetail prev now); (split; [reflexivity|]; apply thin_keeps; auto).
    - assert (e2 = e). { pose proof (iv_distinct _ _ _ _ _ I (bucket_of s)) as D. destruct (ForallOrdPairs_In D e2 e He2 He) as [X|[X|X]]; auto; exfalso; apply X; eauto using same_trans, same_sym. }
      subst e2. exact Src. }
  unfold trail. rewrite ask. destruct (snuffle_ok me _ _ _ _ s 0 (negb r) r e2 I2 Ws Rs V2 He2 S2 ltac:(lia)) as (pr & Eq & Hpr). rewrite (found_one _ e2 s (negb r) r (iv_distinct _ _ _ _ _ I2 _) He2 S2) in Eq.
  exists (map peer (alist e2 r)), pr. split; [rewrite Eq; unfold alist; destruct r; reflexivity|]. split; [exact P | lia].
Qed.
Lemma exhale_held tb i tb' : exhale tb i = Ok tb' -> held tb = false /\ held tb' = false.
Proof.
  unfold exhale. destruct (held tb) eqn:H; [discriminate|]. destruct (buckets tb i) as [b|]; [|intros [= <-]; auto].
  destruct (nbf_age_dec (top b)); cbn [obind]; try discriminate. destruct (exhale_all _ _ _); cbn [obind]; try discriminate. intros [= <-]. split; auto.
Qed.
