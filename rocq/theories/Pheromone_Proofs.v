(** The table as a simple machine over lists of subjects, and the proof that the code's filters behave like it. *)
From Verif Require Import Base Dhkey_Model Dhkey_Proofs Bloom_Model Bloom_Spec Bloom_Std Bloom_Decay Bloom_Count Bloom_Nbf Pheromone_Model Pheromone_Spec Pheromone_Filter.
From Coq Require Import Permutation.

(** * Lists of sources *)
Lemma last_pos_spec f l : forall i acc,
  (exists l1 x l2, l = l1 ++ x :: l2 /\ f x = true /\ Forall (fun y => f y = false) l2 /\ last_pos f l i acc = Some (i + length l1)%nat) \/
  (Forall (fun y => f y = false) l /\ last_pos f l i acc = acc).
Proof.
  induction l as [|y l IH]; intros i acc; cbn [last_pos]; [right; auto|]. destruct (IH (S i) (if f y then Some i else acc)) as [(l1 & x & l2 & -> & F & N & E)|[N E]].
  - left. exists (y :: l1), x, l2. cbn [app length]. repeat split; auto. rewrite E. f_equal. lia.
  - destruct (f y) eqn:Fy; [|right; auto]. left. exists [], y, l. cbn [app length]. rewrite Nat.add_0_r. auto.
Qed.
Lemma delete_at_app l1 x l2 : delete_at (length l1) (l1 ++ x :: l2) = l1 ++ l2.
Proof. unfold delete_at. rewrite firstn_app, Nat.sub_diag, firstn_all, firstn_O, app_nil_r. f_equal. change (S (length l1)) with (1 + length l1)%nat. induction l1 as [|y l1 IH]; [reflexivity|]. cbn. exact IH. Qed.
Lemma remove_spec l k :
  (exists l1 x l2, l = l1 ++ x :: l2 /\ np_dhkey_equal (peer x) k = true /\ Forall (fun y => np_dhkey_equal (peer y) k = false) l2 /\ remove_dhkey l k = (true, l1 ++ l2)) \/
  (Forall (fun y => np_dhkey_equal (peer y) k = false) l /\ remove_dhkey l k = (false, l)).
Proof.
  unfold remove_dhkey. destruct (last_pos_spec (fun x => np_dhkey_equal (peer x) k) l 0 None) as [(l1 & x & l2 & -> & F & N & E)|[N E]]; rewrite E; [left|right; auto].
  exists l1, x, l2. repeat split; auto. cbn [Nat.add]. rewrite delete_at_app. reflexivity.
Qed.
Lemma oldest_spec y r : exists l1 x l2, y :: r = l1 ++ x :: l2 /\ remove_oldest (y :: r) = l1 ++ l2 /\
  ((l1 = [] /\ x = y /\ Forall (fun z => ts y <= ts z) r) \/ (ts x < ts y /\ Forall (fun z => ts y <= ts z) l2)).
Proof.
  unfold remove_oldest. destruct (last_pos_spec (fun z => ts z <? ts y) (y :: r) 0 None) as [(l1 & x & l2 & E0 & F & N & E)|[N E]]; rewrite E.
  - exists l1, x, l2. split; auto. cbn [Nat.add]. rewrite E0, delete_at_app. split; auto. right. split; [lia|]. eapply Forall_impl; [|exact N]. cbn. intros; lia.
  - exists [], y, r. split; auto. split; auto. left. repeat split; auto. inversion N; subst. eapply Forall_impl; [|eassumption]. cbn. intros; lia.
Qed.
Lemma compare_nonzero me l k : wf_key me -> wf_key k -> Forall (fun x => wf_key (peer x) /\ np_dhkey_distance me (peer x) <> np_dhkey_distance me k) l ->
  forall c, c <> 0 -> compare_all me (np_dhkey_distance me k) l c <> 0.
Proof.
  intros Wm Wk. induction 1 as [|x l [W D] _ IH]; intros c Hc; cbn [compare_all]; auto.
  assert (Z : np_dhkey_cmp (np_dhkey_distance me k) (np_dhkey_distance me (peer x)) <> 0) by (intros E; apply cmp_zero in E; auto using distance_wf).
  destruct (_ <? 0); auto.
Qed.
Lemma insert_spec me l k now : wf_key me -> wf_key k -> Forall (fun x => wf_key (peer x) /\ np_dhkey_distance me (peer x) <> np_dhkey_distance me k) l ->
  insert_dhkey me l k now = l ++ [mkDetail k now] \/ insert_dhkey me l k now = mkDetail k now :: l.
Proof.
  intros Wm Wk F. unfold insert_dhkey. pose proof (compare_nonzero me l k Wm Wk F 1 ltac:(lia)) as N. destruct (Z.ltb_spec (compare_all me (np_dhkey_distance me k) l 1) 0); auto.
  replace (0 <? _) with true by lia. auto.
Qed.
Lemma insert_empty me k now : insert_dhkey me [] k now = [mkDetail k now]. Proof. reflexivity. Qed.
(** the list after a source was smelled *)
Definition upd_list (me : key) (l : list detail) (k : key) (now : Z) : list detail :=
  let l2 := insert_dhkey me (snd (remove_dhkey l k)) k now in
  if Z.of_nat (length l2) >? 19 then remove_oldest l2 else l2.
(** a list of sources that is in order *)
Record Lst (K : list key) (bound : Z) (l : list detail) : Prop := {
  ls_nodup : NoDup (map peer l); ls_len : Z.of_nat (length l) <= 19; ls_in : incl (map peer l) K; ls_ts : Forall (fun x => ts x < bound) l }.
Lemma nodup_cut {A B} (f : A -> B) l1 x l2 : NoDup (map f (l1 ++ x :: l2)) -> NoDup (map f (l1 ++ l2)) /\ ~ In (f x) (map f (l1 ++ l2)).
Proof. rewrite !map_app. cbn [map]. intros H. apply NoDup_remove in H. exact H. Qed.
Lemma lst_sub K b l1 x l2 : Lst K b (l1 ++ x :: l2) -> Lst K b (l1 ++ l2).
Proof.
  intros [N L I T]. constructor.
  - apply (nodup_cut peer l1 x l2 N).
  - rewrite app_length in *. cbn [length] in L. lia.
  - intros y Hy. apply I. rewrite map_app in *. cbn [map]. apply in_app_or in Hy. apply in_or_app. destruct Hy; [left|right; right]; auto.
  - apply Forall_app in T. destruct T as [T1 T2]. inversion T2; subst. apply Forall_app. auto.
Qed.
Lemma lst_weaken K b K' b' l : Lst K b l -> incl K K' -> b <= b' -> Lst K' b' l.
Proof. intros [N L I T] HK Hb. constructor; auto; [intros y Hy; auto|eapply Forall_impl; [|exact T]; cbn; intros; lia]. Qed.
Section Upd.
  Variables (me : key) (K : list key).
  Hypotheses (Wme : wf_key me) (WK : Forall wf_key K) (AK : apart me K).
  Lemma remove_lst now l k : Lst K now l -> In k K ->
    exists r l1, remove_dhkey l k = (r, l1) /\ Lst K now l1 /\ ~ In k (map peer l1) /\ Z.of_nat (length l1) = Z.of_nat (length l) - (if r then 1 else 0) /\
      incl (map peer l1) (map peer l) /\ (forall y, In y (map peer l) -> y = k \/ In y (map peer l1)).
  Proof.
    intros HL HK. assert (WL : Forall wf_key (map peer l)) by (rewrite Forall_forall in *; intros y Hy; apply WK, (ls_in _ _ _ HL); auto).
    assert (Wk : wf_key k) by (rewrite Forall_forall in WK; auto).
    destruct (remove_spec l k) as [(l1 & x & l2 & E0 & Q & N & E)|[N E]].
    - exists true, (l1 ++ l2). split; auto. subst l. assert (Wx : wf_key (peer x)) by (rewrite Forall_forall in WL; apply WL; rewrite map_app; apply in_or_app; right; left; auto).
      apply equal_spec in Q; auto. subst k. split; [apply (lst_sub K now l1 x l2 HL)|]. destruct (nodup_cut peer l1 x l2 (ls_nodup _ _ _ HL)) as [_ NI]. split; auto.
      split; [rewrite !app_length; cbn [length]; lia|]. split.
      + intros y Hy. rewrite map_app in *. cbn [map]. apply in_app_or in Hy. apply in_or_app. destruct Hy; [left|right; right]; auto.
      + intros y Hy. rewrite map_app in *. cbn [map] in Hy. apply in_app_or in Hy. destruct Hy as [Hy|[->|Hy]]; auto; right; apply in_or_app; auto.
    - exists false, l. split; auto. split; auto. split; [|split; [lia|split; [apply incl_refl|auto]]].
      intros H. apply in_map_iff in H. destruct H as (x & E1 & Hx). rewrite Forall_forall in N. specialize (N x Hx). rewrite E1 in N.
      assert (np_dhkey_equal k k = true) by (apply equal_spec; auto). congruence.
  Qed.
  Lemma insert_lst now l k : Lst K now l -> In k K -> ~ In k (map peer l) ->
    let l2 := insert_dhkey me l k now in
    NoDup (map peer l2) /\ length l2 = S (length l) /\ (forall y, In y (map peer l2) <-> y = k \/ In y (map peer l)) /\ (l2 = l ++ [mkDetail k now] \/ l2 = mkDetail k now :: l).
  Proof.
    intros HL HK NI. cbn zeta. assert (Wk : wf_key k) by (rewrite Forall_forall in WK; auto).
    assert (F : Forall (fun x => wf_key (peer x) /\ np_dhkey_distance me (peer x) <> np_dhkey_distance me k) l).
    { rewrite Forall_forall. intros x Hx. assert (Ik : In (peer x) K) by (apply (ls_in _ _ _ HL), in_map; auto). split; [rewrite Forall_forall in WK; auto|]. intros E. apply AK in E; auto. subst. apply NI, in_map, Hx. }
    destruct (insert_spec me l k now Wme Wk F) as [E|E]; rewrite E.
    - rewrite map_app, app_length. cbn [map length]. split.
      { apply Permutation_NoDup with (k :: map peer l); [rewrite <- Permutation_cons_append; auto|constructor; auto; apply HL]. }
      split; [lia|]. split; [|auto]. intros y. rewrite in_app_iff. cbn. intuition.
    - cbn [map length peer]. split; [constructor; auto; apply HL|]. split; [auto|]. split; [|auto]. intros y. cbn. intuition.
  Qed.
  Lemma upd_lst now l k : Lst K now l -> In k K ->
    Lst K (now + 1) (upd_list me l k now) /\ In k (map peer (upd_list me l k now)) /\ incl (map peer (upd_list me l k now)) (k :: map peer l) /\
    (In k (map peer l) \/ Z.of_nat (length l) < 19 -> forall y, In y (map peer l) -> In y (map peer (upd_list me l k now))) /\
    (1 <= length (upd_list me l k now))%nat /\
    (~ In k (map peer l) -> Z.of_nat (length l) = 19 -> Z.of_nat (length (upd_list me l k now)) = 19 /\
       exists x, In x (map peer l) /\ ~ In x (map peer (upd_list me l k now)) /\ forall y, In y (map peer l) -> y = x \/ In y (map peer (upd_list me l k now))).
  Proof.
    intros HL HK. destruct (remove_lst now l k HL HK) as (r & l1 & E & HL1 & NI & Len & I1 & I2). unfold upd_list. rewrite E. cbn [snd].
    destruct (insert_lst now l1 k HL1 HK NI) as (ND & Ln & M & Sh). set (l2 := insert_dhkey me l1 k now) in *. cbn zeta.
    assert (T2 : Forall (fun x => ts x < now + 1) l2).
    { assert (T1 : Forall (fun x => ts x < now + 1) l1) by (eapply Forall_impl; [|apply (ls_ts _ _ _ HL1)]; cbn; intros; lia). destruct Sh as [-> | ->]; [apply Forall_app; split; auto|]; constructor; cbn; auto; lia. }
    assert (I2K : incl (map peer l2) K) by (intros y Hy; apply M in Hy; destruct Hy as [->|Hy]; auto; apply (ls_in _ _ _ HL1); auto).
    assert (Inc : incl (map peer l2) (k :: map peer l)) by (intros y Hy; apply M in Hy; destruct Hy as [->|Hy]; [left|right]; auto).
    pose proof (ls_len _ _ _ HL) as LL.
    destruct (Z.gtb_spec (Z.of_nat (length l2)) 19) as [G|G].
    - assert (R : r = false) by (destruct r; auto; lia). subst r. assert (El : Z.of_nat (length l) = 19) by lia.
      assert (Nk : ~ In k (map peer l)).
      { intros H. destruct (remove_spec l k) as [(a & x & b & _ & _ & _ & E')|[N E']]; [congruence|]. apply in_map_iff in H. destruct H as (x & Ex & Hx). rewrite Forall_forall in N. specialize (N x Hx).
        assert (Wk : wf_key k) by (rewrite Forall_forall in WK; auto). rewrite Ex in N. assert (np_dhkey_equal k k = true) by (apply equal_spec; auto). congruence. }
      destruct l2 as [|y l2'] eqn:El2; [cbn in G; lia|]. destruct (oldest_spec y l2') as (a & x & b & Eq & Er & Cs). rewrite Er.
      (* the new one is not the one removed *)
      assert (Nx : peer x <> k).
      { intros Hx. assert (Hp : x = mkDetail k now).
        { assert (Hin : In x (y :: l2')) by (rewrite Eq; apply in_or_app; right; left; auto). destruct Sh as [Sh|Sh]; rewrite Sh in Hin.
          - apply in_app_or in Hin. destruct Hin as [Hin|[<-|[]]]; auto. exfalso. apply NI. rewrite <- Hx. apply in_map. auto.
          - destruct Hin as [<-|Hin]; auto. exfalso. apply NI. rewrite <- Hx. apply in_map. auto. }
        pose proof (ls_ts _ _ _ HL1) as Ts. rewrite Forall_forall in Ts. subst x. cbn [ts] in Cs.
        destruct Sh as [Sh|Sh].
        - destruct l1 as [|z l1']; [cbn in Len; lia|]. injection Sh as -> ->. destruct Cs as [(_ & Ez & _)|[Hlt _]].
          + assert (In z (z :: l1')) by (left; auto). specialize (Ts z H). rewrite <- Ez in Ts. cbn in Ts. lia.
          + specialize (Ts z (or_introl eq_refl)). lia.
        - injection Sh as -> ->. cbn [ts] in Cs. destruct Cs as [(_ & _ & Fa)|[Hlt _]]; [|lia]. destruct l1 as [|z l1']; [cbn in Len; lia|]. inversion Fa; subst. specialize (Ts z (or_introl eq_refl)). lia. }
      rewrite Eq in ND, T2, I2K, Inc, M. destruct (nodup_cut peer a x b ND) as [ND' NIx].
      assert (LenR : Z.of_nat (length (a ++ b)) = 19).
      { assert (length (y :: l2') = length (a ++ x :: b)) by (rewrite Eq; auto). rewrite app_length in *. cbn [length] in *. lia. }
      assert (Keep : forall z, In z (map peer (a ++ x :: b)) -> z = peer x \/ In z (map peer (a ++ b))).
      { intros z Hz. rewrite map_app in *. cbn [map] in Hz. apply in_app_or in Hz. destruct Hz as [Hz|[->|Hz]]; auto; right; apply in_or_app; auto. }
      assert (Sub : incl (map peer (a ++ b)) (map peer (a ++ x :: b))).
      { intros z Hz. rewrite map_app in *. cbn [map]. apply in_app_or in Hz. apply in_or_app. destruct Hz; [left|right; right]; auto. }
      split; [|split; [|split; [|split; [|split]]]].
      + constructor; auto; [lia|intros z Hz; apply I2K; auto|]. apply Forall_app in T2. destruct T2 as [Ta Tb]. inversion Tb; subst. apply Forall_app. auto.
      + destruct (Keep k) as [Q|Q]; auto; [apply M; auto|]. congruence.
      + intros z Hz. apply Inc, Sub, Hz.
      + intros [Q|Q]; [contradiction|lia].
      + lia.
      + intros _ _. split; auto. exists (peer x). split; [|split; auto].
        * assert (Hx : In (peer x) (map peer (a ++ x :: b))) by (rewrite map_app; apply in_or_app; right; left; auto). apply M in Hx. destruct Hx as [Hx|Hx]; [congruence|auto].
        * intros z Hz. apply Keep, M. right. destruct (I2 z Hz) as [->|Q]; [contradiction|auto].
    - split; [constructor; auto; lia|]. split; [apply M; auto|]. split; [auto|]. split; [|split; [lia|]].
      + intros _ z Hz. apply M. destruct (I2 z Hz); auto.
      + intros Nk El. exfalso. destruct r; [|lia]. destruct (remove_spec l k) as [(a & x & b & E0 & Q & _ & _)|[_ E']]; [|congruence]. apply Nk. assert (Wx : wf_key (peer x)) by (rewrite Forall_forall in WK; apply WK, (ls_in _ _ _ HL); rewrite E0, map_app; apply in_or_app; right; left; auto).
        apply equal_spec in Q; auto; [|rewrite Forall_forall in WK; auto]. subst k. rewrite E0, map_app. apply in_or_app. right. left. auto.
  Qed.
End Upd.
