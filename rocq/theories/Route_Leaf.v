(** Proofs about the leafset. *)
From Verif Require Import Base Dhkey_Model Dhkey_Spec Dhkey_Proofs Dhkey_Props Keycache_Model Keycache_Spec Keycache_Proofs Keycache_Props Route_Model Route_Spec Route_Proofs.

Lemma sorted_app {A} (R : A -> A -> Prop) a b : StronglySorted R (a ++ b) -> StronglySorted R a /\ (forall x y, In x a -> In y b -> R x y).
Proof.
  induction a as [|x a IH]; cbn; intros H; [split; [constructor|intros ? ? []]|].
  inversion H as [|? ? H1 H2]; subst. destruct (IH H1) as [I1 I2]. rewrite Forall_app in H2. destruct H2 as [F1 F2]. split; [constructor; auto|].
  intros u v [<-|Hu] Hv; [|auto]. rewrite Forall_forall in F2. auto.
Qed.

Lemma leaf_find_spec l (n : node) : Forall (fun x : node => wf_key (fst x)) l -> wf_key (fst n) ->
  match leaf_find l n with Some x => In x l /\ fst x = fst n | None => ~ In (fst n) (map fst l) end.
Proof.
  intros F W. induction F as [|x l Hx F IH]; cbn [leaf_find map In]; [tauto|].
  destruct (Z.eqb_spec (np_dhkey_cmp (fst x) (fst n)) 0) as [E|E].
  - apply cmp_zero in E; auto. 
  - assert (fst x <> fst n) by (intros C; apply E; apply cmp_zero; auto).
    destruct (leaf_find l n); [destruct IH; auto|]. tauto.
Qed.
Lemma leaf_remove_in l n y : In y (leaf_remove l n) -> In y l.
Proof. induction l as [|x l IH]; cbn [leaf_remove]; [tauto|]. destruct (_ =? 0); [right; auto|]. intros [->|H]; [left|right]; auto. Qed.
Lemma leaf_remove_spec l (n : node) : Forall (fun x : node => wf_key (fst x)) l -> wf_key (fst n) -> In (fst n) (map fst l) ->
  exists x : node, fst x = fst n /\ Permutation l (x :: leaf_remove l n).
Proof.
  intros F W. induction F as [|x l Hx F IH]; cbn [leaf_remove map In]; [tauto|]. intros H.
  destruct (Z.eqb_spec (np_dhkey_cmp (fst x) (fst n)) 0) as [E|E].
  - apply cmp_zero in E; auto. exists x. auto.
  - destruct H as [H|H]; [exfalso; apply E; apply cmp_zero; auto|]. destruct (IH H) as (y & Hy & P). exists y. split; [exact Hy|].
    rewrite perm_swap. constructor. exact P.
Qed.
Lemma leaf_remove_sorted (R : node -> node -> Prop) l n : StronglySorted R l -> StronglySorted R (leaf_remove l n).
Proof.
  induction 1 as [|x l S IH F]; cbn [leaf_remove]; [constructor|]. destruct (_ =? 0); [exact S|]. constructor; [exact IH|].
  rewrite Forall_forall in *. intros y Hy. apply F. eapply leaf_remove_in. exact Hy.
Qed.
Lemma leaf_last_far me l : leaf_last l me = farthest me l.
Proof.
  unfold leaf_last, farthest. destruct l as [|x l] using rev_ind; [reflexivity|]. rewrite rev_unit, last_last. reflexivity.
Qed.

(** A half is in order *)
Definition half_ok (me : key) (size : Z) (side : key -> Prop) (l : list node) : Prop :=
  Forall (fun x : node => wf_key (fst x) /\ fst x <> me /\ side (fst x)) l /\ NoDup (map fst l) /\ sorted_by_distance me l /\ Z.of_nat (length l) <= size.
Lemma half_wf me size side l : half_ok me size side l -> Forall (fun x : node => wf_key (fst x)) l.
Proof. intros (F & _). eapply Forall_impl; [|exact F]. intros x H. apply H. Qed.

(** ** Where the sort puts a new first element of a sorted list *)
Section Insert.
Context {A : Type} (before : A -> A -> bool).
Lemma swap_first_none x l : (forall y, In y l -> before y x = false) -> swap_first before x l = None.
Proof. induction l as [|y l IH]; intros H; cbn; [reflexivity|]. rewrite H by (left; reflexivity). rewrite IH by (intros z Hz; apply H; right; exact Hz). reflexivity. Qed.
Lemma pass_sorted l : StronglySorted (fun x y => before y x = false) l -> pass before (length l) l = (l, false).
Proof.
  induction 1 as [|x l S IH F]; [reflexivity|]. cbn [length pass]. rewrite swap_first_none by (apply Forall_forall; exact F). rewrite IH. reflexivity.
Qed.
Lemma pass_insert x ys es : (forall y, In y ys -> before y x = true) -> (forall e, In e es -> before e x = false) ->
  StronglySorted (fun x y => before y x = false) es ->
  pass before (S (length (ys ++ es))) (x :: ys ++ es) = (ys ++ x :: es, negb (Nat.eqb (length ys) 0)).
Proof.
  intros H1 H2 S. induction ys as [|y ys IH].
  - cbn [app pass]. rewrite swap_first_none by exact H2. rewrite pass_sorted by exact S. reflexivity.
  - cbn [app length]. cbn [pass swap_first]. rewrite H1 by (left; reflexivity).
    specialize (IH (fun z Hz => H1 z (or_intror Hz))). cbn [pass] in IH. rewrite IH. reflexivity.
Qed.
Lemma passes_insert x ys es fuel : (2 <= fuel)%nat -> (forall y, In y ys -> before y x = true) -> (forall e, In e es -> before e x = false) ->
  StronglySorted (fun x y => before y x = false) es -> StronglySorted (fun x y => before y x = false) (ys ++ x :: es) ->
  passes before fuel (x :: ys ++ es) = Some (ys ++ x :: es).
Proof.
  intros L H1 H2 S1 S2. destruct fuel as [|[|fuel]]; [lia|lia|]. cbn [passes length]. rewrite pass_insert by auto. cbn [fst snd].
  destruct (Nat.eqb_spec (length ys) 0) as [E|E]; [reflexivity|]. cbn [negb]. rewrite pass_sorted by exact S2. reflexivity.
Qed.
End Insert.

Lemma sort_insert me (n : node) l : wf_key me -> wf_key (fst n) -> Forall (fun x : node => wf_key (fst x)) l -> sorted_by_distance me l ->
  exists ys es, l = ys ++ es /\ (forall y, In y ys -> distance_to me (fst y) < distance_to me (fst n)) /\
    (forall e, In e es -> distance_to me (fst n) <= distance_to me (fst e)) /\
    forall fuel, (2 <= fuel)%nat -> sort_keys_kd fst fuel (n :: l) me = Some (ys ++ n :: es).
Proof.
  intros Hm W F S.
  assert (Sp : exists ys es, l = ys ++ es /\ (forall y, In y ys -> distance_to me (fst y) < distance_to me (fst n)) /\
    (forall e, In e es -> distance_to me (fst n) <= distance_to me (fst e))).
  { clear F. induction S as [|y l S IH F].
    - exists [], []. split; [reflexivity|]. split; intros ? [].
    - destruct (Z_lt_dec (distance_to me (fst y)) (distance_to me (fst n))) as [L|L].
      + destruct IH as (ys & es & -> & H1 & H2). exists (y :: ys), es. split; [reflexivity|]. split; [intros z [<-|Hz]; auto|exact H2].
      + exists [], (y :: l). split; [reflexivity|]. split; [intros ? []|]. rewrite Forall_forall in F. intros e [<-|He]; [lia|]. specialize (F e He). cbn in F. lia. }
  destruct Sp as (ys & es & -> & H1 & H2). exists ys, es. split; [reflexivity|]. split; [exact H1|]. split; [exact H2|].
  intros fuel Lf. unfold sort_keys_kd. destruct (Nat.ltb_spec (length (n :: ys ++ es)) 2) as [L|L].
  - cbn [length] in L. destruct ys, es; cbn in L; try lia. reflexivity.
  - rewrite Forall_app in F. destruct F as [F1 F2]. rewrite Forall_forall in F1, F2. destruct (sorted_app _ _ _ S) as [S1 S3].
    assert (S2 : sorted_by_distance me es) by (clear - S; induction ys as [|y ys IH]; [exact S|inversion S; auto]).
    assert (K : forall l, Forall (fun x : node => wf_key (fst x)) l -> sorted_by_distance me l -> StronglySorted (fun x y => kd_before fst me y x = false) l).
    { clear - Hm. intros l F S. induction S as [|x l S IH R]; [constructor|]. inversion F as [|? ? Wx F']; subst. constructor; [auto|].
      rewrite Forall_forall in *. intros y Hy. rewrite kd_before_rank by auto. specialize (R y Hy). lia. }
    apply passes_insert; auto.
    + intros y Hy. rewrite kd_before_rank by auto. specialize (H1 y Hy). lia.
    + intros e He. rewrite kd_before_rank by auto. specialize (H2 e He). lia.
    + apply K; [apply Forall_forall; exact F2|exact S2].
    + apply K; [apply Forall_app; split; [apply Forall_forall; exact F1|constructor; [exact W|apply Forall_forall; exact F2]]|].
      clear - S1 S2 S3 H1 H2. induction S1 as [|y ys S IH F]; cbn.
      * constructor; [exact S2|]. apply Forall_forall. exact H2.
      * constructor; [apply IH; [intros z Hz; apply H1; right; exact Hz|intros a b Ha Hb; apply S3; [right; exact Ha|exact Hb]]|].
        apply Forall_app. split; [exact F|]. constructor; [specialize (H1 y (or_introl eq_refl)); lia|]. apply Forall_forall. intros e He. apply S3; [left; reflexivity|exact He].
Qed.

Lemma half_add_spec me size side l (n : node) near (bound : key -> Prop) : wf_key me -> 0 <= size -> half_ok me size side l -> wf_key (fst n) -> fst n <> me -> side (fst n) ->
  ~ In (fst n) (map fst l) -> (near = true <-> bound (fst n)) ->
  exists l' d0 add, half_add me size l n near = Ok (l', d0, add) /\ half_ok me size side l' /\
    let both := match d0 with Some d => add && (np_dhkey_cmp (fst d) (fst n) =? 0) | None => false end in
    let d := if both then None else d0 in let a := if both then None else if add then Some n else None in
    half_effect me size n bound l l' d a /\ (d = None -> a = None -> l' = l).
Proof.
  intros Hm Hs HO W N Sd NI HB. pose proof HO as (F & D & S & L). unfold half_add.
  destruct ((Z.of_nat (length l) <? size) || near) eqn:A; cbn [obind].
  2:{ apply orb_false_iff in A. destruct A as [A1 A2]. exists l, None, false.
      destruct (Z.gtb_spec (Z.of_nat (length l)) size); [lia|]. split; [reflexivity|]. split; [exact HO|]. cbn. split; [|reflexivity].
      apply HOutside; [lia|reflexivity|]. intros C. apply HB in C. congruence. }
  destruct (sort_insert me n l Hm W (half_wf _ _ _ _ HO) S) as (ys & es & El & Hy & He & H1).
  rewrite H1 by lia. cbn [obind].
  assert (P1 : Permutation (n :: l) (ys ++ n :: es)) by (rewrite El; apply Permutation_middle).
  assert (F2 : Forall (fun x : node => wf_key (fst x) /\ fst x <> me /\ side (fst x)) (ys ++ n :: es)).
  { rewrite <- P1. constructor; auto. }
  assert (D2 : NoDup (map fst (ys ++ n :: es))).
  { eapply Permutation_NoDup; [apply Permutation_map; exact P1|]. cbn. constructor; auto. }
  assert (S1 : sorted_by_distance me (ys ++ n :: es)).
  { rewrite El in S. clear - S Hy He. induction ys as [|y ys IH]; cbn in *.
    - constructor; [exact S|apply Forall_forall; exact He].
    - inversion S as [|? ? S1 S2]; subst. constructor; [apply IH; auto|]. rewrite Forall_app in S2. destruct S2 as [S2 S3]. apply Forall_app. split; [exact S2|].
      constructor; [specialize (Hy y (or_introl eq_refl)); lia|exact S3]. }
  pose proof (Permutation_length P1) as PL. cbn [length] in PL.
  destruct (Z.gtb_spec (Z.of_nat (length (ys ++ n :: es))) size) as [G|G].
  - destruct es as [|z es _] using rev_ind.
    + rewrite app_nil_r in El. subst ys. rewrite rev_unit, removelast_last.
      exists l, (Some n), true. split; [reflexivity|]. split; [exact HO|]. cbn [andb].
      replace (np_dhkey_cmp (fst n) (fst n) =? 0) with true by (symmetry; apply Z.eqb_eq; apply cmp_zero; auto). cbv zeta. cbn iota. split; [|reflexivity].
      apply HFar; [rewrite app_length in G; cbn in G; lia|apply Permutation_refl|]. intros y Hy'. specialize (Hy y Hy'). lia.
    + replace (ys ++ n :: es ++ [z]) with ((ys ++ n :: es) ++ [z]) in * by (rewrite <- app_assoc; reflexivity).
      rewrite rev_unit, removelast_last. destruct (sorted_app _ _ _ S1) as [S2 S3]. rewrite app_length in PL, G. cbn [length] in PL, G.
      exists (ys ++ n :: es), (Some z), true. split; [reflexivity|]. split.
      { split; [rewrite Forall_app in F2; apply F2|]. split; [rewrite map_app in D2; apply NoDup_remove_1 in D2; rewrite app_nil_r in D2; exact D2|].
        split; [exact S2|lia]. }
      cbn [andb]. assert (Hz : In z l) by (rewrite El, !in_app_iff; right; right; left; reflexivity).
      assert (Wz : wf_key (fst z)) by (rewrite Forall_forall in F; apply (F z Hz)).
      assert (NZ : fst z <> fst n) by (intros C; apply NI; rewrite <- C; apply in_map; exact Hz).
      destruct (Z.eqb_spec (np_dhkey_cmp (fst z) (fst n)) 0) as [E|E]; [apply cmp_zero in E; auto; contradiction|]. cbv zeta. cbn iota. split; [|discriminate].
      apply HDisplace with (ys ++ es).
      * rewrite El, !app_length in *. cbn [length] in *. lia.
      * rewrite El, app_assoc. symmetry. apply Permutation_cons_append.
      * symmetry. apply Permutation_middle.
      * intros y Hy'. rewrite El, app_assoc in Hy'. apply in_app_iff in Hy'. destruct Hy' as [Hy'|[<-|[]]]; [|lia].
        apply S3; [|left; reflexivity]. rewrite in_app_iff in *. cbn. tauto.
      * apply S3; [|left; reflexivity]. rewrite in_app_iff. cbn. tauto.
  - exists (ys ++ n :: es), None, true. split; [reflexivity|]. split; [split; [exact F2|]; split; [exact D2|]; split; [exact S1|lia]|].
    cbn. split; [|discriminate]. apply HRoom; [lia|symmetry; exact P1].
Qed.

(** The whole leafset *)
Definition LInv (r : route) : Prop :=
  wf_key (my r) /\ 0 <= leafset_size r < 65536 /\
  half_ok (my r) (leafset_size r) (fun k => ~ in_right_half (my r) k) (left r) /\ half_ok (my r) (leafset_size r) (in_right_half (my r)) (right r) /\
  lrange r = farthest (my r) (left r) /\ rrange r = farthest (my r) (right r) /\
  left_count r = Z.of_nat (length (left r)) /\ right_count r = Z.of_nat (length (right r)).

Lemma right_half_spec me k : wf_key me -> wf_key k -> np_dhkey_between k me (np_dhkey_add me dhkey_half) true = true <-> in_right_half me k.
Proof.
  intros Hm Hk. assert (Ha : wf_key (np_dhkey_add me dhkey_half)) by (apply add_wf; [exact Hm|apply Dhkey_Proofs.half_wf]).
  rewrite between_spec by auto. unfold in_right_half.
  destruct (list_eq_dec Z.eq_dec k me) as [->|]; [tauto|]. destruct (list_eq_dec Z.eq_dec k (np_dhkey_add me dhkey_half)) as [->|]; tauto.
Qed.
Lemma arc_bound me f k : wf_key me -> wf_key f -> wf_key k -> k <> me -> k <> f -> (np_dhkey_between k me f false = true <-> inside_arc (kval me) (kval f) (kval k)).
Proof. intros Hm Hf Hk N1 N2. rewrite between_spec by auto. split; [intros [[_ C]|C]; [discriminate|tauto]|right; auto]. Qed.
Lemma farthest_wf me l : wf_key me -> Forall (fun x : node => wf_key (fst x)) l -> wf_key (farthest me l).
Proof.
  intros Hm F. unfold farthest. destruct l as [|x l _] using rev_ind; [exact Hm|]. rewrite last_last. rewrite Forall_app in F. destruct F as [_ F]. inversion F; auto.
Qed.
Lemma farthest_in me l : farthest me l = me \/ In (farthest me l) (map fst l).
Proof.
  unfold farthest. destruct l as [|x l _] using rev_ind; [left; reflexivity|]. rewrite last_last. right. rewrite map_app, in_app_iff. right. left. reflexivity.
Qed.

Definition same_table (r r' : route) : Prop :=
  my r' = my r /\ table r' = table r /\ route_count r' = route_count r /\ leafset_size r' = leafset_size r /\ in_route r' = in_route r.

Lemma half_length me size side l : 0 <= size < 65536 -> half_ok me size side l -> u16 (Z.of_nat (length l)) = Z.of_nat (length l).
Proof. intros R (_ & _ & _ & L). apply u16_small. lia. Qed.
Lemma half_remove me size side l n : half_ok me size side l -> half_ok me size side (leaf_remove l n).
Proof.
  intros (F & D & S & L). split; [|split; [|split]].
  - rewrite Forall_forall in *. intros x Hx. apply F. eapply leaf_remove_in. exact Hx.
  - clear - D. induction l as [|x l IH]; cbn in *; [constructor|]. inversion D as [|? ? D1 D2]; subst. destruct (_ =? 0); [exact D2|].
    cbn. constructor; [|auto]. intros C. apply D1. apply in_map_iff in C. destruct C as (y & <- & Hy). apply in_map. eapply leaf_remove_in. exact Hy.
  - apply leaf_remove_sorted. exact S.
  - assert (length (leaf_remove l n) <= length l)%nat; [|lia]. clear. induction l as [|x l IH]; cbn; [lia|]. destruct (_ =? 0); cbn; lia.
Qed.

Lemma leafset_update_spec r (n : node) joined : LInv r -> wf_key (fst n) ->
  exists r' d a, np_route_leafset_update r n joined = Ok (r', d, a) /\ LInv r' /\ same_table r r' /\
    leafset_effect (my r) (leafset_size r) n (left r) (right r) joined (left r') (right r') d a /\
    (forall o, in_leafset r' o = in_leafset r o + (match a with Some x => if o =? snd x then 1 else 0 | None => 0 end)
                                                - (match d with Some x => if o =? snd x then 1 else 0 | None => 0 end)).
Proof.
  intros HI W. pose proof HI as (Hm & Rs & HL & HR & El & Er & Cl & Cr). unfold np_route_leafset_update.
  assert (Z0 : forall o, in_leafset r o = in_leafset r o + 0 - 0) by (intros o; lia).
  destruct (Z.eqb_spec (np_dhkey_cmp (fst n) (my r)) 0) as [Q|Q].
  { apply cmp_zero in Q; auto. exists r, None, None. split; [reflexivity|]. split; [exact HI|]. split; [repeat split|]. split; [apply LOwn; exact Q|exact Z0]. }
  assert (N : fst n <> my r) by (intros C; apply Q; apply cmp_zero; auto).
  pose proof (half_wf _ _ _ _ HL) as FL. pose proof (half_wf _ _ _ _ HR) as FR.
  pose proof (leaf_find_spec (right r) n FR W) as Sr. pose proof (leaf_find_spec (left r) n FL W) as Sl.
  assert (Same : LInv (with_leafset r (left r) (right r) false (in_leafset r))).
  { unfold LInv, with_leafset. cbn. rewrite (half_length _ _ _ _ Rs HL), (half_length _ _ _ _ Rs HR). tauto. }
  destruct joined; cbn [negb].
  - destruct (leaf_find (right r) n) as [x|].
    { eexists _, _, _. split; [reflexivity|]. split; [exact Same|]. split; [repeat split|]. split; [|exact Z0]. cbn. apply LPresent with x; [rewrite in_app_iff; tauto|tauto]. }
    destruct (leaf_find (left r) n) as [x|].
    { eexists _, _, _. split; [reflexivity|]. split; [exact Same|]. split; [repeat split|]. split; [|exact Z0]. cbn. apply LPresent with x; [rewrite in_app_iff; tauto|tauto]. }
    assert (NI : ~ In (fst n) (map fst (left r ++ right r))) by (rewrite map_app, in_app_iff; tauto).
    pose proof (right_half_spec (my r) (fst n) Hm W) as RH.
    destruct (np_dhkey_between (fst n) (my r) (np_dhkey_add (my r) dhkey_half) true) eqn:B.
    + assert (Sd : in_right_half (my r) (fst n)) by (apply RH; reflexivity).
      assert (AB : np_dhkey_between (fst n) (my r) (rrange r) false = true <-> right_bound (my r) (right r) (fst n)).
      { rewrite Er. unfold right_bound. apply arc_bound; auto.
        - apply farthest_wf; auto.
        - intros C. destruct (farthest_in (my r) (right r)) as [E|E]; rewrite <- C in E; tauto. }
      destruct (half_add_spec (my r) (leafset_size r) (in_right_half (my r)) (right r) n _ _ Hm ltac:(lia) HR W N Sd Sr AB) as (l' & d0 & add & E & HO & EF).
      rewrite E. cbn [obind fst snd]. cbv zeta in EF.
      set (d := if match d0 with Some d => add && (np_dhkey_cmp (fst d) (fst n) =? 0) | None => false end then None else d0) in *.
      set (a := if match d0 with Some d => add && (np_dhkey_cmp (fst d) (fst n) =? 0) | None => false end then None else if add then Some n else None) in *.
      destruct EF as [EF ES]. eexists _, _, _. split; [reflexivity|]. split; [|split; [repeat split|split]].
      * unfold LInv, with_leafset. cbn. rewrite (half_length _ _ _ _ Rs HL), (half_length _ _ _ _ Rs HO). rewrite !leaf_last_far.
        split; [exact Hm|]. split; [exact Rs|]. split; [exact HL|]. split; [exact HO|].
        destruct d as [xd|]; [auto|]. destruct a as [xa|]; [auto|]. rewrite ES by reflexivity. auto.
      * cbn. apply LRight; auto.
      * intros o. cbn. destruct a as [xa|], d as [xd|]; cbn; unfold ref; try (destruct (o =? snd xa)); try (destruct (o =? snd xd)); lia.
    + assert (Sd : ~ in_right_half (my r) (fst n)) by (intros C; apply RH in C; discriminate).
      assert (AB : np_dhkey_between (fst n) (lrange r) (my r) false = true <-> left_bound (my r) (left r) (fst n)).
      { rewrite El. unfold left_bound. apply arc_bound; auto.
        - apply farthest_wf; auto.
        - intros C. destruct (farthest_in (my r) (left r)) as [E|E]; rewrite <- C in E; tauto. }
      destruct (half_add_spec (my r) (leafset_size r) (fun k => ~ in_right_half (my r) k) (left r) n _ _ Hm ltac:(lia) HL W N Sd Sl AB) as (l' & d0 & add & E & HO & EF).
      rewrite E. cbn [obind fst snd]. cbv zeta in EF.
      set (d := if match d0 with Some d => add && (np_dhkey_cmp (fst d) (fst n) =? 0) | None => false end then None else d0) in *.
      set (a := if match d0 with Some d => add && (np_dhkey_cmp (fst d) (fst n) =? 0) | None => false end then None else if add then Some n else None) in *.
      destruct EF as [EF ES]. eexists _, _, _. split; [reflexivity|]. split; [|split; [repeat split|split]].
      * unfold LInv, with_leafset. cbn. rewrite (half_length _ _ _ _ Rs HR), (half_length _ _ _ _ Rs HO). rewrite !leaf_last_far.
        split; [exact Hm|]. split; [exact Rs|]. split; [exact HO|]. split; [exact HR|].
        destruct d as [xd|]; [auto|]. destruct a as [xa|]; [auto|]. rewrite ES by reflexivity. auto.
      * cbn. apply LLeft; auto.
      * intros o. cbn. destruct a as [xa|], d as [xd|]; cbn; unfold ref; try (destruct (o =? snd xa)); try (destruct (o =? snd xd)); lia.
  - destruct (leaf_find (right r) n) as [x|].
    { assert (Hn : In (fst n) (map fst (right r))) by (destruct Sr as [H <-]; apply in_map; exact H).
      destruct (leaf_remove_spec (right r) n FR W Hn) as (y & Ey & P).
      pose proof (half_remove _ _ _ _ n HR) as HO.
      eexists _, _, _. split; [reflexivity|]. split; [|split; [repeat split|split]].
      - unfold LInv, with_leafset. cbn. rewrite (half_length _ _ _ _ Rs HL), (half_length _ _ _ _ Rs HO). rewrite !leaf_last_far. auto 10.
      - cbn. apply LLeave with y; [exact Ey|]. transitivity (left r ++ y :: leaf_remove (right r) n); [apply Permutation_app_head; exact P|symmetry; apply Permutation_middle].
      - intros o. cbn. unfold ref. destruct (o =? snd n); lia. }
    destruct (leaf_find (left r) n) as [x|].
    { assert (Hn : In (fst n) (map fst (left r))) by (destruct Sl as [H <-]; apply in_map; exact H).
      destruct (leaf_remove_spec (left r) n FL W Hn) as (y & Ey & P).
      pose proof (half_remove _ _ _ _ n HL) as HO.
      eexists _, _, _. split; [reflexivity|]. split; [|split; [repeat split|split]].
      - unfold LInv, with_leafset. cbn. rewrite (half_length _ _ _ _ Rs HR), (half_length _ _ _ _ Rs HO). rewrite !leaf_last_far. auto 10.
      - cbn. apply LLeave with y; [exact Ey|]. apply (Permutation_app_tail (right r)) in P. exact P.
      - intros o. cbn. unfold ref. destruct (o =? snd n); lia. }
    eexists _, _, _. split; [reflexivity|]. split; [exact Same|]. split; [repeat split|]. split; [|exact Z0].
    cbn. apply LGone. rewrite map_app, in_app_iff. tauto.
Qed.

Lemma init_linv me size : wf_key me -> LInv (np_route_init me size).
Proof.
  intros H. unfold LInv, np_route_init. cbn. split; [exact H|]. assert (0 <= u16 size < 65536) by (unfold u16; apply Z.mod_pos_bound; lia).
  split; [assumption|]. assert (K : forall side, half_ok me (u16 size) side []) by (intros side; repeat split; cbn; try constructor; lia).
  auto 10.
Qed.
Lemma linv_table r r' : same_rest r r' -> LInv r -> LInv r'.
Proof. intros (E1 & E2 & E3 & E4 & E5 & E6 & E7 & E8 & _). unfold LInv. rewrite E1, E2, E3, E4, E5, E6, E7, E8. exact (fun H => H). Qed.
Lemma inv_leafset r r' : same_table r r' -> Inv r -> Inv r'.
Proof. intros (E1 & E2 & E3 & _). unfold Inv. rewrite !get_table_tbl, E1, E2, E3. exact (fun H => H). Qed.
