(** Histories of routing table and leafset. *)
From Verif Require Import Base Dhkey_Model Dhkey_Spec Dhkey_Proofs Keycache_Model Keycache_Spec Keycache_Proofs Route_Model Route_Spec Route_Proofs Route_Leaf.

Lemma times_perm o l l' : Permutation l l' -> times o l = times o l'.
Proof. intros P. unfold times. f_equal. apply (Permutation_map snd) in P. rewrite (Permutation_count_occ Z.eq_dec) in P. apply P. Qed.
Lemma times_cons o (x : node) l : times o (x :: l) = (if o =? snd x then 1 else 0) + times o l.
Proof. unfold times. cbn. destruct (Z.eq_dec (snd x) o); destruct (Z.eqb_spec o (snd x)); lia. Qed.
Lemma times_app o l l' : times o (l ++ l') = times o l + times o l'.
Proof. unfold times. rewrite map_app, count_occ_app. lia. Qed.
Lemma times_in o l : 0 < times o l <-> In o (map snd l).
Proof. unfold times. rewrite (count_occ_In Z.eq_dec). lia. Qed.

(** Everything in the state comes from the nodes [ns] *)
Definition within (ns : list node) (r : route) : Prop := incl (np_route_get_table r) ns /\ incl (left r ++ right r) ns.
Definition counted (r : route) : Prop :=
  forall o, in_route r o = times o (np_route_get_table r) /\ in_leafset r o = times o (left r ++ right r).

Lemma effect_incl me lat n j T T' d a ns : table_effect me lat n j T T' d a -> incl T ns -> In n ns -> incl T' ns.
Proof.
  intros E HT Hn. destruct E as [| |? ? L P|? ? ? ? L I N M G P1 P2| |? ? x rest P1 Ex P2|]; auto.
  - intros y Hy. rewrite P in Hy. destruct Hy as [<-|Hy]; auto.
  - intros y Hy. rewrite P2 in Hy. destruct Hy as [<-|Hy]; auto. apply HT. rewrite P1. right. exact Hy.
  - intros y Hy. rewrite P2 in Hy. apply HT. rewrite P1. right. exact Hy.
Qed.
Lemma effect_times me lat n j T T' d a ns o : proper ns -> incl T ns -> In n ns -> table_effect me lat n j T T' d a ->
  times o T' = times o T + (match a with Some x => if o =? snd x then 1 else 0 | None => 0 end)
                        - (match d with Some x => if o =? snd x then 1 else 0 | None => 0 end).
Proof.
  intros (_ & PR) HT Hn E. destruct E as [| |? ? L P|? ? ? ? L I N M G P1 P2| |? ? x rest P1 Ex P2|]; try lia.
  - rewrite (times_perm o _ _ P), times_cons. lia.
  - rewrite (times_perm o _ _ P1), (times_perm o _ _ P2), !times_cons. lia.
  - rewrite (times_perm o _ _ P1), (times_perm o _ _ P2), !times_cons.
    assert (snd x = snd n) by (apply PR; auto; apply HT; rewrite P1; left; reflexivity). rewrite H. lia.
Qed.
Lemma half_incl me size n b H H' d a ns : half_effect me size n b H H' d a -> incl H ns -> In n ns -> incl H' ns.
Proof.
  intros E HT Hn. destruct E as [L P|x rest L P1 P2 M G|L P M|L -> M]; auto.
  - intros y Hy. rewrite P in Hy. destruct Hy as [<-|Hy]; auto.
  - intros y Hy. rewrite P2 in Hy. destruct Hy as [<-|Hy]; auto. apply HT. rewrite P1. right. exact Hy.
  - intros y Hy. rewrite P in Hy. auto.
Qed.
Lemma half_times me size n b H H' d a o : half_effect me size n b H H' d a ->
  times o H' = times o H + (match a with Some x => if o =? snd x then 1 else 0 | None => 0 end)
                        - (match d with Some x => if o =? snd x then 1 else 0 | None => 0 end).
Proof.
  intros E. destruct E as [L P|x rest L P1 P2 M G|L P M|L -> M]; try lia.
  - rewrite (times_perm o _ _ P), times_cons. lia.
  - rewrite (times_perm o _ _ P1), (times_perm o _ _ P2), !times_cons. lia.
  - rewrite (times_perm o _ _ P). lia.
Qed.
Lemma leafset_incl me size n L R j L' R' d a ns : leafset_effect me size n L R j L' R' d a -> incl (L ++ R) ns -> In n ns -> incl (L' ++ R') ns.
Proof.
  intros E HT Hn. destruct E as [| |R' d a NI S H|L' d a NI S H|L' R' x Ex P|]; auto.
  - apply incl_app; [intros y Hy; apply HT, in_app_iff; auto|]. eapply half_incl; eauto. intros y Hy. apply HT, in_app_iff; auto.
  - apply incl_app; [|intros y Hy; apply HT, in_app_iff; auto]. eapply half_incl; eauto. intros y Hy. apply HT, in_app_iff; auto.
  - intros y Hy. apply HT. rewrite P. right. exact Hy.
Qed.
Lemma leafset_times me size n L R j L' R' d a ns o : proper ns -> incl (L ++ R) ns -> In n ns -> leafset_effect me size n L R j L' R' d a ->
  times o (L' ++ R') = times o (L ++ R) + (match a with Some x => if o =? snd x then 1 else 0 | None => 0 end)
                        - (match d with Some x => if o =? snd x then 1 else 0 | None => 0 end).
Proof.
  intros (_ & PR) HT Hn E. destruct E as [| |R' d a NI S H|L' d a NI S H|L' R' x Ex P|]; try lia.
  - rewrite !times_app, (half_times _ _ _ _ _ _ _ _ o H). lia.
  - rewrite !times_app, (half_times _ _ _ _ _ _ _ _ o H). lia.
  - rewrite (times_perm o _ _ P), times_cons.
    assert (snd x = snd n) by (apply PR; auto; apply HT; rewrite P; left; reflexivity). rewrite H. lia.
Qed.

Definition All (ns : list node) (r : route) : Prop := Inv r /\ LInv r /\ within ns r /\ counted r.
Lemma all_update ns r (n : node) j lat : proper ns -> All ns r -> In n ns ->
  exists r' d a, np_route_update r n j lat = Ok (r', d, a) /\ All ns r' /\ same_rest r r' /\
    table_effect (my r) lat n j (np_route_get_table r) (np_route_get_table r') d a.
Proof.
  intros PR (HI & HL & (W1 & W2) & HC) Hn. assert (W : wf_key (fst n)) by (destruct PR as [F _]; rewrite Forall_forall in F; auto).
  destruct (update_spec r n j lat HI W) as (r' & d & a & E & HI' & SR & TE & RF). exists r', d, a. split; [exact E|]. split; [|auto].
  split; [exact HI'|]. split; [eapply linv_table; eauto|]. pose proof SR as (_ & E2 & E3 & _ & _ & _ & _ & _ & E9). split.
  - split; [eapply effect_incl; eauto|]. rewrite E2, E3. exact W2.
  - intros o. rewrite E2, E3, E9. split; [|apply HC]. rewrite RF, (effect_times _ _ _ _ _ _ _ _ _ o PR W1 Hn TE). rewrite (proj1 (HC o)). reflexivity.
Qed.
Lemma all_leafset ns r (n : node) j : proper ns -> All ns r -> In n ns ->
  exists r' d a, np_route_leafset_update r n j = Ok (r', d, a) /\ All ns r' /\ same_table r r' /\
    leafset_effect (my r) (leafset_size r) n (left r) (right r) j (left r') (right r') d a.
Proof.
  intros PR (HI & HL & (W1 & W2) & HC) Hn. assert (W : wf_key (fst n)) by (destruct PR as [F _]; rewrite Forall_forall in F; auto).
  destruct (leafset_update_spec r n j HL W) as (r' & d & a & E & HL' & SR & TE & RF). exists r', d, a. split; [exact E|]. split; [|auto].
  pose proof SR as (_ & E2 & _ & _ & E5). assert (ET : np_route_get_table r' = np_route_get_table r) by (rewrite !get_table_tbl, E2; reflexivity).
  split; [eapply inv_leafset; eauto|]. split; [exact HL'|]. split.
  - split; [rewrite ET; exact W1|eapply leafset_incl; eauto].
  - intros o. rewrite ET, E5. split; [apply HC|]. rewrite RF, (leafset_times _ _ _ _ _ _ _ _ _ _ _ o PR W2 Hn TE). rewrite (proj2 (HC o)). reflexivity.
Qed.
Lemma all_init ns me size : wf_key me -> All ns (np_route_init me size).
Proof.
  intros H. split; [apply init_inv; exact H|]. split; [apply init_linv; exact H|].
  assert (E : np_route_get_table (np_route_init me size) = []) by (rewrite get_table_tbl; apply tbl_empty).
  split; [split; rewrite ?E; intros x []|]. intros o. rewrite E. split; reflexivity.
Qed.

(** ** Any calls *)
Lemma all_events ns es : forall r, proper ns -> All ns r -> (forall e, In e es -> In (event_node e) ns) ->
  exists r', run_events r es = Ok r' /\ All ns r' /\ my r' = my r /\ leafset_size r' = leafset_size r.
Proof.
  induction es as [|e es IH]; intros r PR A H; cbn [run_events]; [eauto|].
  assert (Hn : In (event_node e) ns) by (apply H; left; reflexivity).
  assert (K : exists r1, run_event r e = Ok r1 /\ All ns r1 /\ my r1 = my r /\ leafset_size r1 = leafset_size r).
  { destruct e as [n j lat|n j]; cbn [run_event event_node] in *.
    - destruct (all_update ns r n j lat PR A Hn) as (r' & d & a & -> & A' & SR & _). exists r'. split; [reflexivity|]. split; [exact A'|].
      split; apply SR.
    - destruct (all_leafset ns r n j PR A Hn) as (r' & d & a & -> & A' & SR & _). exists r'. split; [reflexivity|]. split; [exact A'|].
      split; apply SR. }
  destruct K as (r1 & -> & A1 & M1 & S1). cbn [obind]. destruct (IH r1 PR A1) as (r2 & E2 & A2 & M2 & S2); [intros e' He; apply H; right; exact He|].
  exists r2. split; [exact E2|]. split; [exact A2|]. split; congruence.
Qed.

(** ** Nodes that come and go *)
Definition HInv (ns : list node) (h : hood) : Prop :=
  All ns (rt h) /\ NoDup (map fst (np_route_get_table (rt h))) /\
  (forall o, flag h o = true <-> In o (map snd (np_route_get_table (rt h)))) /\
  (forall o, leaf_flag h o = true <-> In o (map snd (left (rt h) ++ right (rt h)))).

Lemma effect_nodup me lat n j T T' d a : table_effect me lat n j T T' d a -> (j = true -> ~ In (fst n) (map fst T)) -> NoDup (map fst T) -> NoDup (map fst T').
Proof.
  intros E NI D. destruct E as [| |? ? L P|? ? ? ? L I N M G P1 P2| |? ? x rest P1 Ex P2|]; auto.
  - apply (Permutation_map fst) in P. eapply Permutation_NoDup; [symmetry; exact P|]. cbn. constructor; auto.
  - apply (Permutation_map fst) in P1, P2. eapply Permutation_NoDup; [symmetry; exact P2|]. cbn in *.
    assert (D1 : NoDup (fst x :: map fst rest)) by (eapply Permutation_NoDup; eauto). inversion D1; subst. constructor; auto.
    intros C. apply NI; [reflexivity|]. rewrite P1. right. exact C.
  - apply (Permutation_map fst) in P1, P2. eapply Permutation_NoDup; [symmetry; exact P2|].
    assert (D1 : NoDup (fst x :: map fst rest)) by (eapply Permutation_NoDup; eauto). inversion D1; auto.
Qed.
Lemma keys_objects ns (l : list node) (n : node) : proper ns -> incl l ns -> In n ns -> (In (fst n) (map fst l) <-> In (snd n) (map snd l)).
Proof.
  intros (_ & PR) HI Hn. rewrite !in_map_iff. split; intros (x & E & Hx); exists x; (split; [|exact Hx]); apply PR; auto.
Qed.
Lemma set_flag_some f (x : node) b o : set_flag f (Some x) b o = if o =? snd x then b else f o.
Proof. reflexivity. Qed.
(** The flags after an update, when before it they were right *)
Lemma flags_follow (f : Z -> bool) T T' (a d : option node) :
  (forall o, times o T' = times o T + (match a with Some x => if o =? snd x then 1 else 0 | None => 0 end)
                        - (match d with Some x => if o =? snd x then 1 else 0 | None => 0 end)) ->
  (forall o, f o = true <-> 0 < times o T) -> (forall x, a = Some x -> 0 = times (snd x) T) -> (forall x, d = Some x -> times (snd x) T = 1) ->
  (forall x y, a = Some x -> d = Some y -> snd x <> snd y) ->
  forall o, set_flag (set_flag f a true) d false o = true <-> 0 < times o T'.
Proof.
  intros E F Ha Hd Hn o. specialize (E o). specialize (F o).
  assert (N : 0 <= times o T) by (unfold times; lia).
  destruct a as [x|], d as [y|]; rewrite ?set_flag_some; cbn [set_flag] in *.
  - specialize (Hn x y eq_refl eq_refl). specialize (Ha x eq_refl). specialize (Hd y eq_refl).
    destruct (Z.eqb_spec o (snd y)) as [Eo|]; [subst o; split; [discriminate|]; destruct (Z.eqb_spec (snd y) (snd x)); lia|].
    destruct (Z.eqb_spec o (snd x)) as [Eo|]; [subst o; split; [|reflexivity]; lia|]. rewrite F. lia.
  - specialize (Ha x eq_refl). destruct (Z.eqb_spec o (snd x)) as [Eo|]; [subst o; split; [|reflexivity]; lia|]. rewrite F. lia.
  - specialize (Hd y eq_refl). destruct (Z.eqb_spec o (snd y)) as [Eo|]; [subst o; split; [discriminate|]; lia|]. rewrite F. lia.
  - rewrite F. lia.
Qed.
Lemma nodup_times ns l o : proper ns -> incl l ns -> NoDup (map fst l) -> times o l <= 1.
Proof.
  intros (_ & PR) HI D. assert (ND : NoDup (map snd l)).
  { clear o. induction l as [|x l IH]; cbn in *; [constructor|]. inversion D as [|? ? D1 D2]; subst. constructor; [|apply IH; auto; intros y Hy; apply HI; right; exact Hy].
    intros C. apply D1. apply in_map_iff in C. destruct C as (y & E & Hy). apply in_map_iff. exists y. split; [|exact Hy]. apply PR; auto; apply HI; [right; exact Hy|left; reflexivity]. }
  unfold times. rewrite (NoDup_count_occ Z.eq_dec) in ND. specialize (ND o). lia.
Qed.
Lemma times_zero o l : times o l = 0 <-> ~ In o (map snd l).
Proof. rewrite <- times_in. unfold times. lia. Qed.

Lemma half_nodup me size side l : half_ok me size side l -> NoDup (map fst l).
Proof. intros (_ & D & _). exact D. Qed.
Lemma leafset_nodup r : LInv r -> NoDup (map fst (left r ++ right r)).
Proof.
  intros (_ & _ & HL & HR & _). rewrite map_app. pose proof (half_nodup _ _ _ _ HL) as DL. pose proof (half_nodup _ _ _ _ HR) as DR.
  destruct HL as [FL _]. destruct HR as [FR _]. rewrite Forall_forall in FL, FR.
  assert (X : forall k, In k (map fst (left r)) -> ~ In k (map fst (right r))).
  { intros k H1 H2. apply in_map_iff in H1, H2. destruct H1 as (x & <- & Hx), H2 as (y & E & Hy). destruct (FL x Hx) as (_ & _ & S1). destruct (FR y Hy) as (_ & _ & S2).
    rewrite E in S2. contradiction. }
  clear - DL DR X. induction (map fst (left r)) as [|k l IH]; cbn; [exact DR|]. inversion DL; subst. constructor.
  - rewrite in_app_iff. intros [C|C]; [contradiction|]. apply (X k (or_introl eq_refl) C).
  - apply IH; auto. intros k' Hk. apply X. right. exact Hk.
Qed.

Lemma hood_move ns h m : proper ns -> HInv ns h -> In (move_node m) ns ->
  exists h', run_move h m = Ok h' /\ HInv ns h' /\ my (rt h') = my (rt h).
Proof.
  intros PR HH Hn. pose proof HH as (A & D & FL & LF). pose proof A as (HI & HL & (W1 & W2) & HC).
  assert (F1 : forall o, flag h o = true <-> 0 < times o (np_route_get_table (rt h))) by (intros o; rewrite times_in; apply FL).
  assert (F2 : forall o, leaf_flag h o = true <-> 0 < times o (left (rt h) ++ right (rt h))) by (intros o; rewrite times_in; apply LF).
  destruct m as [n lat|n lat|n|n]; cbn [run_move move_node] in *.
  - unfold node_enters_table. destruct (flag h (snd n)) eqn:E; [exists h; auto|].
    assert (NI : ~ In (snd n) (map snd (np_route_get_table (rt h)))) by (rewrite <- FL; congruence).
    assert (NK : ~ In (fst n) (map fst (np_route_get_table (rt h)))) by (rewrite (keys_objects ns) by auto; exact NI).
    destruct (all_update ns (rt h) n true lat PR A Hn) as (r' & d & a & -> & A' & SR & TE). cbn [obind fst snd].
    eexists. split; [reflexivity|]. split; [|apply SR]. split; [exact A'|]. cbn [rt flag leaf_flag].
    split; [eapply effect_nodup; eauto|]. pose proof SR as (_ & -> & -> & _). split; [|exact LF].
    intros o. rewrite <- times_in. apply (flags_follow (flag h) (np_route_get_table (rt h))); auto.
    + intros o'. eapply effect_times; eauto.
    + intros x ->. assert (x = n) by (inversion TE; auto). subst x. symmetry. apply times_zero. exact NI.
    + intros x ->. assert (Hx : In x (np_route_get_table (rt h))).
      { inversion TE; subst. match goal with H : In _ (filter _ _) |- _ => apply filter_In in H; apply H end. }
      pose proof (nodup_times ns _ (snd x) PR W1 D). assert (0 < times (snd x) (np_route_get_table (rt h))) by (apply times_in; apply in_map; exact Hx). lia.
    + intros x y -> ->. assert (x = n /\ In y (np_route_get_table (rt h))).
      { inversion TE; subst. split; [reflexivity|]. match goal with H : In _ (filter _ _) |- _ => apply filter_In in H; apply H end. }
      destruct H as [-> Hy]. intros C. apply NI. rewrite C. apply in_map. exact Hy.
  - unfold node_leaves_table. destruct (flag h (snd n)) eqn:E; [|exists h; auto].
    destruct (all_update ns (rt h) n false lat PR A Hn) as (r' & d & a & -> & A' & SR & TE). cbn [obind fst snd].
    eexists. split; [reflexivity|]. split; [|apply SR]. split; [exact A'|]. cbn [rt flag leaf_flag].
    split; [eapply effect_nodup; eauto; discriminate|]. pose proof SR as (_ & -> & -> & _). split; [|exact LF].
    assert (a = None) by (inversion TE; auto). subst a.
    intros o. rewrite <- times_in. apply (flags_follow (flag h) (np_route_get_table (rt h)) _ None); auto.
    + intros o'. rewrite (effect_times _ _ _ _ _ _ _ _ _ o' PR W1 Hn TE). reflexivity.
    + discriminate.
    + intros x ->. assert (x = n) by (inversion TE; auto). subst x. apply F1 in E. pose proof (nodup_times ns _ (snd n) PR W1 D). lia.
    + discriminate.
  - unfold node_enters_leafset. destruct (leaf_flag h (snd n)) eqn:E; [exists h; auto|].
    assert (NI : ~ In (snd n) (map snd (left (rt h) ++ right (rt h)))) by (rewrite <- LF; congruence).
    destruct (all_leafset ns (rt h) n true PR A Hn) as (r' & d & a & -> & A' & SR & TE). cbn [obind fst snd].
    eexists. split; [reflexivity|]. split; [|apply SR]. split; [exact A'|]. cbn [rt flag leaf_flag]. pose proof SR as (_ & ET & _).
    assert (ET' : np_route_get_table r' = np_route_get_table (rt h)) by (rewrite !get_table_tbl, ET; reflexivity). rewrite ET'.
    split; [exact D|]. split; [exact FL|].
    pose proof (leafset_nodup _ HL) as DL.
    assert (DD : forall x, d = Some x -> In x (left (rt h) ++ right (rt h)) /\ (forall y, a = Some y -> y = n)).
    { intros x ->. inversion TE; subst; match goal with H : half_effect _ _ _ _ _ _ _ _ |- _ => inversion H; subst end;
        (split; [rewrite in_app_iff|intros y Hy; congruence]); match goal with H : Permutation _ (x :: _) |- _ => rewrite !H end; cbn; auto. }
    assert (AN : forall x, a = Some x -> x = n).
    { intros x ->. inversion TE; subst; match goal with H : half_effect _ _ _ _ _ _ _ _ |- _ => inversion H; subst end; reflexivity. }
    intros o. rewrite <- times_in. apply (flags_follow (leaf_flag h) (left (rt h) ++ right (rt h))); auto.
    + intros o'. eapply leafset_times; eauto.
    + intros x Ha. rewrite (AN x Ha). symmetry. apply times_zero. exact NI.
    + intros x Hd. destruct (DD x Hd) as [Hx _]. pose proof (nodup_times ns _ (snd x) PR W2 DL).
      assert (0 < times (snd x) (left (rt h) ++ right (rt h))) by (apply times_in; apply in_map; exact Hx). lia.
    + intros x y Ha Hd. destruct (DD y Hd) as [Hy _]. rewrite (AN x Ha). intros C. apply NI. rewrite C. apply in_map. exact Hy.
  - unfold node_leaves_leafset. destruct (leaf_flag h (snd n)) eqn:E; [|exists h; auto].
    destruct (all_leafset ns (rt h) n false PR A Hn) as (r' & d & a & -> & A' & SR & TE). cbn [obind fst snd].
    eexists. split; [reflexivity|]. split; [|apply SR]. split; [exact A'|]. cbn [rt flag leaf_flag]. pose proof SR as (_ & ET & _).
    assert (ET' : np_route_get_table r' = np_route_get_table (rt h)) by (rewrite !get_table_tbl, ET; reflexivity). rewrite ET'.
    split; [exact D|]. split; [exact FL|]. pose proof (leafset_nodup _ HL) as DL.
    assert (a = None) by (inversion TE; auto). subst a.
    intros o. rewrite <- times_in. apply (flags_follow (leaf_flag h) (left (rt h) ++ right (rt h)) _ None); auto.
    + intros o'. rewrite (leafset_times _ _ _ _ _ _ _ _ _ _ _ o' PR W2 Hn TE). reflexivity.
    + discriminate.
    + intros x ->. assert (x = n) by (inversion TE; auto). subst x. apply F2 in E. pose proof (nodup_times ns _ (snd n) PR W2 DL). lia.
    + discriminate.
Qed.
Lemma hood_moves ns ms : forall h, proper ns -> HInv ns h -> (forall m, In m ms -> In (move_node m) ns) ->
  exists h', run_moves h ms = Ok h' /\ HInv ns h' /\ my (rt h') = my (rt h).
Proof.
  induction ms as [|m ms IH]; intros h PR A H; cbn [run_moves]; [eauto|].
  destruct (hood_move ns h m PR A (H m (or_introl eq_refl))) as (h1 & -> & A1 & M1). cbn [obind].
  destruct (IH h1 PR A1) as (h2 & E2 & A2 & M2); [intros m' Hm; apply H; right; exact Hm|]. exists h2. split; [exact E2|]. split; [exact A2|]. congruence.
Qed.
Lemma hood_init ns me size : wf_key me -> HInv ns (new_hood me size).
Proof.
  intros H. split; [apply all_init; exact H|]. cbn [new_hood rt flag leaf_flag].
  assert (E : np_route_get_table (np_route_init me size) = []) by (rewrite get_table_tbl; apply tbl_empty). rewrite E. cbn.
  split; [constructor|]. split; intros o; split; try discriminate; intros [].
Qed.
