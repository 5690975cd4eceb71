(** Proofs about the search for the next hop. *)
From Verif Require Import Base Dhkey_Model Dhkey_Spec Dhkey_Proofs Dhkey_Props Keycache_Model Keycache_Spec Keycache_Proofs Keycache_Props Route_Model Route_Spec Route_Proofs Route_Leaf Route_Hist.

(** ** Prefixes *)
Lemma prefix_ge n : forall a b : list Z, (n <= length a)%nat -> (n <= length b)%nat -> (forall j, (j < n)%nat -> nth j a 0 = nth j b 0) -> (n <= common_prefix a b)%nat.
Proof.
  induction n as [|n IH]; intros a b La Lb H; [lia|]. destruct a as [|x a], b as [|y b]; cbn in La, Lb; try lia. cbn.
  rewrite (H 0%nat ltac:(lia) : x = y), Z.eqb_refl. apply le_n_S. apply IH; [lia|lia|]. intros j Hj. apply (H (S j)). lia.
Qed.
Lemma onward_rival me k (x : node) : wf_key me -> wf_key k -> wf_key (fst x) -> me <> k -> (rival me k x = true <-> onward me k x).
Proof.
  intros Hm Hk Hx N. pose proof (shared_lt me k Hm Hk N) as L. unfold rival, onward, digit. rewrite andb_true_iff, Nat.eqb_eq, Z.eqb_eq.
  pose proof (str_length me Hm) as Lm. pose proof (str_length k Hk) as Lk. pose proof (str_length (fst x) Hx) as Lx.
  unfold shared in *. set (a := np_dhkey_str me) in *. set (b := np_dhkey_str k) in *. set (c := np_dhkey_str (fst x)) in *.
  pose proof (common_prefix_differ a b 0 ltac:(lia) ltac:(lia)) as D. split.
  - intros [E1 E2]. rewrite E1 in E2. apply prefix_ge; [lia|lia|]. intros j Hj. destruct (Nat.eq_dec j (common_prefix a b)) as [->|]; [exact E2|].
    rewrite <- (common_prefix_agree a b j 0) by lia. symmetry. apply common_prefix_agree. lia.
  - intros G. assert (E : common_prefix a c = common_prefix a b).
    { assert (common_prefix a b <= common_prefix a c)%nat.
      { apply prefix_ge; [lia|lia|]. intros j Hj. rewrite (common_prefix_agree a b j 0) by lia. symmetry. apply common_prefix_agree. lia. }
      destruct (Nat.le_gt_cases (common_prefix a c) (common_prefix a b)) as [|C]; [lia|]. exfalso. apply D.
      rewrite (common_prefix_agree a c _ 0 C). apply common_prefix_agree. exact G. }
    split; [exact E|]. rewrite E. apply common_prefix_agree. exact G.
Qed.
Lemma shared_sym a b : shared a b = shared b a.
Proof. apply common_prefix_sym. Qed.

(** ** The loops *)
Lemma first_good_spec t suc slots : match first_good t suc slots with
  | Some x => usable suc x /\ exists s, In s slots /\ t s = Some x
  | None => forall s x, In s slots -> t s = Some x -> ~ usable suc x
  end.
Proof.
  unfold usable. induction slots as [|s l IH]; cbn [first_good]; [intros s x []|]. destruct (t s) as [x|] eqn:E.
  - destruct (Z.gtb_spec (suc (snd x)) bad_link) as [G|G]; change bad_link with 2500000000000 in G.
    + split; [exact G|]. exists s. cbn. auto.
    + destruct (first_good t suc l) as [y|].
      * destruct IH as (U & s' & H1 & H2). split; [exact U|]. exists s'. cbn. auto.
      * intros s' y [<-|H] Ey; [|eauto]. assert (x = y) by congruence. subst y. lia.
  - destruct (first_good t suc l) as [y|].
    * destruct IH as (U & s' & H1 & H2). split; [exact U|]. exists s'. cbn. auto.
    * intros s' y [<-|H] Ey; [congruence|eauto].
Qed.
Lemma metric_cost lat suc x : metric lat suc x = cost lat suc x.
Proof. reflexivity. Qed.
Lemma best_of_spec t lat suc (ns : list node) slots : proper ns -> (forall s x, In s slots -> t s = Some x -> In x ns) -> forall cur, In cur ns ->
  forall y, y = best_of t lat suc slots cur -> (y = cur \/ exists s, In s slots /\ t s = Some y) /\ cost lat suc y <= cost lat suc cur /\
  forall s z, In s slots -> t s = Some z -> cost lat suc y <= cost lat suc z.
Proof.
  intros PR. induction slots as [|s l IH]; intros HN cur Hc y Ey; cbn [best_of] in Ey.
  - subst y. split; [auto|]. split; [lia|]. intros s z [].
  - assert (HN' : forall s' x, In s' l -> t s' = Some x -> In x ns) by (intros s' x H; apply HN; right; exact H).
    specialize (IH HN'). destruct (t s) as [x|] eqn:E.
    + assert (Hx : In x ns) by (apply (HN s); [left; reflexivity|exact E]).
      assert (Wx : wf_key (fst x) /\ wf_key (fst cur)) by (destruct PR as [F _]; rewrite Forall_forall in F; auto).
      change metric with cost in Ey. destruct (np_dhkey_equal (fst x) (fst cur)) eqn:Q; cbn [negb andb] in Ey.
      * apply equal_spec in Q; [|apply Wx|apply Wx]. assert (snd x = snd cur) by (apply (proj2 PR); auto).
        destruct (IH cur Hc y Ey) as (A & B & C). split; [destruct A as [A|(s' & A1 & A2)]; [auto|right; exists s'; cbn; auto]|]. split; [exact B|].
        intros s' z [<-|H1] H2; [|eauto]. assert (x = z) by congruence. subst z. unfold cost in *. rewrite H. exact B.
      * destruct (Z.gtb_spec (cost lat suc cur) (cost lat suc x)) as [G|G].
        -- destruct (IH x Hx y Ey) as (A & B & C). split; [right; destruct A as [A|(s' & A1 & A2)]; [exists s; rewrite A|exists s']; cbn; auto|].
           split; [lia|]. intros s' z [<-|H1] H2; [|eauto]. assert (x = z) by congruence. subst z. exact B.
        -- destruct (IH cur Hc y Ey) as (A & B & C). split; [destruct A as [A|(s' & A1 & A2)]; [auto|right; exists s'; cbn; auto]|]. split; [exact B|].
           intros s' z [<-|H1] H2; [|eauto]. assert (x = z) by congruence. subst z. lia.
    + destruct (IH cur Hc y Ey) as (A & B & C). split; [destruct A as [A|(s' & A1 & A2)]; [auto|right; exists s'; cbn; auto]|]. split; [exact B|].
      intros s' z [<-|H1] H2; [congruence|eauto].
Qed.
Lemma good_in_row_spec me t suc i x : wf_key me -> placed me t -> (i < 64)%nat ->
  In x (good_in_row t suc (Z.of_nat i)) <-> In x (tbl t) /\ shared me (fst x) = i /\ usable suc x.
Proof.
  intros Hm P Li. unfold good_in_row, usable. rewrite filter_In, in_flat_map, tbl_in. split.
  - intros ((j & Hj & H) & U). apply in_flat_map in H. destruct H as (e & He & Hx). rewrite upto_in in Hj, He. unfold MAX_COL, MAX_ENTRY in *.
    destruct (t (slot (Z.of_nat i) j e)) as [y|] eqn:E; [|destruct Hx]. destruct Hx as [->|[]].
    split; [exists (slot (Z.of_nat i) j e); split; [apply slot_range; lia|exact E]|]. split; [|change bad_link with 2500000000000 in U; lia].
    destruct (P _ _ E) as (W & N & j' & e' & Es & Rj & Re & _). apply slot_inj in Es; lia.
  - intros ((s & Rs & E) & Sh & U). split; [|change bad_link with 2500000000000; lia].
    destruct (P _ _ E) as (W & N & j & e & Es & Rj & Re & _). exists j. rewrite upto_in. split; [exact Rj|]. apply in_flat_map. exists e. rewrite upto_in.
    split; [exact Re|]. rewrite <- Sh, <- Es, E. left. reflexivity.
Qed.
Lemma upwards_spec t suc i : (exists i', (i' <= i)%nat /\ upwards t suc i = good_in_row t suc (Z.of_nat i') /\ good_in_row t suc (Z.of_nat i') <> [] /\
    forall i'', (i' < i'' <= i)%nat -> good_in_row t suc (Z.of_nat i'') = []) \/
  (upwards t suc i = [] /\ forall i', (i' <= i)%nat -> good_in_row t suc (Z.of_nat i') = []).
Proof.
  induction i as [|i IH]; cbn [upwards].
  - destruct (good_in_row t suc (Z.of_nat 0)) as [|x l] eqn:E.
    + right. split; [reflexivity|]. intros i' H. replace i' with 0%nat by lia. exact E.
    + left. exists 0%nat. split; [lia|]. split; [auto|]. split; [rewrite E; discriminate|lia].
  - destruct (good_in_row t suc (Z.of_nat (S i))) as [|x l] eqn:E.
    + destruct IH as [(i' & A & B & C & D)|(A & B)].
      * left. exists i'. split; [lia|]. split; [exact B|]. split; [exact C|]. intros i'' H. destruct (Nat.eq_dec i'' (S i)) as [->|]; [exact E|apply D; lia].
      * right. split; [exact A|]. intros i' H. destruct (Nat.eq_dec i' (S i)) as [->|]; [exact E|apply B; lia].
    + left. exists (S i). split; [lia|]. split; [auto|]. split; [rewrite E; discriminate|]. intros; lia.
Qed.

(** ** The search *)
Lemma lookup_spec ns r k count lat suc : proper ns -> All ns r -> wf_key k -> k <> my r -> 0 <= count ->
  exists l, np_route_lookup r k count lat suc = Ok l /\ next_hop (my r) k count lat suc (np_route_get_table r) (left r) (right r) l.
Proof.
  intros PR ((Hm & P & _) & (_ & _ & HL & HR & El & Er & _) & (W1 & W2) & _) Hk N Hc. rewrite get_table_tbl in *. unfold np_route_lookup.
  set (T := tbl (table r)) in *.
  assert (FW : Forall (fun x : node => wf_key (fst x)) (left r ++ right r)) by (apply Forall_app; split; [eapply half_wf; exact HL|eapply half_wf; exact HR]).
  assert (FT : forall x : node, In x T -> wf_key (fst x)) by (intros x Hx; apply tbl_in in Hx; destruct Hx as (s & _ & E); exact (proj1 (P _ _ E))).
  assert (CV : np_dhkey_between k (lrange r) (rrange r) true = true <-> covered (my r) (left r) (right r) k).
  { rewrite El, Er. unfold covered. assert (Fl : forall l, Forall (fun x : node => wf_key (fst x)) l -> wf_key (farthest (my r) l)).
    { intros l F. unfold farthest. destruct l as [|x l _] using rev_ind; [exact Hm|]. rewrite last_last. rewrite Forall_app in F. destruct F as [_ F]. inversion F; auto. }
    rewrite Forall_app in FW. rewrite between_spec by (auto; apply Fl; apply FW).
    destruct (list_eq_dec Z.eq_dec k (farthest (my r) (left r))), (list_eq_dec Z.eq_dec k (farthest (my r) (right r))); tauto. }
  destruct ((count =? 1) && np_dhkey_between k (lrange r) (rrange r) true) eqn:B.
  { apply andb_prop in B. destruct B as [B1 B2]. apply CV in B2. apply Z.eqb_eq in B1.
    destruct (left r ++ right r) as [|x0 l0] eqn:EL.
    - apply app_eq_nil in EL. destruct EL as [EL ER]. rewrite EL, ER. exists []. split; [reflexivity|]. rewrite EL, ER in B2. apply NEmptyLeafset; auto.
    - destruct (C28_closest node fst (right r ++ left r) k Hk) as (x & E & Hx & M).
      + rewrite Permutation_app_comm, EL. exact FW.
      + intros C. apply app_eq_nil in C. destruct C as [C1 C2]. rewrite C1, C2 in EL. discriminate.
      + exists [x]. split; [change (key * Z)%type with node in *; rewrite E; reflexivity|].
        apply NLeafset; auto; [rewrite in_app_iff in *; tauto|]. intros y Hy. apply M. rewrite in_app_iff in *. tauto. }
  assert (NC : ~ (count = 1 /\ covered (my r) (left r) (right r) k)).
  { intros [C1 C2]. apply CV in C2. rewrite C1, C2 in B. discriminate. }
  destruct (first_slot_spec (my r) k Hm Hk (fun C => N (eq_sym C))) as (j & -> & Rj & D). cbn [obind]. fold (slots_of (slot (Z.of_nat (shared (my r) k)) j 0)).
  set (slots := slots_of (slot (Z.of_nat (shared (my r) k)) j 0)).
  assert (SL : forall s x, table r s = Some x -> (In s slots <-> onward (my r) k x)).
  { intros s x E. unfold slots. rewrite (placed_slots (my r) (table r) s x k j P E Rj D). apply onward_rival; auto. exact (proj1 (P _ _ E)). }
  assert (ST : forall s x, table r s = Some x -> In x T) by (intros s x E; apply tbl_in; exists s; split; [exact (placed_range (my r) (table r) s x Hm P E)|exact E]).
  assert (TS : forall x, In x T -> exists s, table r s = Some x) by (intros x Hx; apply tbl_in in Hx; destruct Hx as (s & _ & E); eauto).
  pose proof (first_good_spec (table r) suc slots) as FG.
  pose proof (shared_lt (my r) k Hm Hk (fun C => N (eq_sym C))) as L.
  destruct (Z.leb_spec 1 count) as [C1|C1]; [|assert (count = 0) by lia; subst count; destruct (first_good (table r) suc slots);
    (exists [(my r, -1)]; split; [reflexivity|apply NSelf; reflexivity])].
  destruct (first_good (table r) suc slots) as [x|].
  - destruct FG as (U & s & Hs & Es). exists [best_of (table r) lat suc slots x]. split; [reflexivity|].
    destruct (best_of_spec (table r) lat suc ns slots PR (fun s' y _ E => W1 y (ST s' y E)) x (W1 x (ST s x Es)) _ eq_refl) as (A1 & A2 & A3).
    assert (K : In (best_of (table r) lat suc slots x) T /\ onward (my r) k (best_of (table r) lat suc slots x)).
    { destruct A1 as [->|(s' & H1 & H2)]; [split; [eauto|apply (SL s); auto]|split; [eauto|apply (SL s'); auto]]. }
    apply NOnward with x; auto; try apply K; [eauto|apply (SL s); auto|].
    intros z Hz Oz. destruct (TS z Hz) as (s' & E'). apply (A3 s'); [apply (SL s' z); auto|exact E'].
  - replace (count =? 0) with false by lia. rewrite index_spec by auto. fold (shared (my r) k). rewrite Nat2Z.id.
    assert (NG : forall y, In y T -> onward (my r) k y -> ~ usable suc y).
    { intros y Hy Oy. destruct (TS y Hy) as (s & Es). apply (FG s); [apply (SL s y); auto|exact Es]. }
    destruct (upwards_spec (table r) suc (shared (my r) k)) as [(i & Li & -> & NE & Up)|(-> & Up)].
    + assert (G : forall x, In x (good_in_row (table r) suc (Z.of_nat i)) <-> In x T /\ shared (my r) (fst x) = i /\ usable suc x)
        by (intros x; apply good_in_row_spec; auto; lia).
      assert (FG' : Forall (fun x : node => wf_key (fst x)) (good_in_row (table r) suc (Z.of_nat i))) by (apply Forall_forall; intros x Hx; apply FT; apply G; exact Hx).
      assert (Mx : forall x y : node, shared (my r) (fst x) = i -> In y T -> usable suc y -> (shared (my r) (fst y) <= shared (my r) k)%nat -> (shared (my r) (fst y) <= shared (my r) (fst x))%nat).
      { intros x y Ex Hy Uy Ly. rewrite Ex. destruct (Nat.le_gt_cases (shared (my r) (fst y)) i) as [|C]; [lia|]. exfalso.
        assert (Z0 : In y (good_in_row (table r) suc (Z.of_nat (shared (my r) (fst y))))) by (apply good_in_row_spec with (my r); auto; lia).
        rewrite Up in Z0 by lia. destruct Z0. }
      destruct (count =? 1) eqn:C.
      * destruct (C28_closest node fst _ k Hk FG' NE) as (x & E & Hx & M). exists [x].
        split; [change (key * Z)%type with node in *; rewrite E; reflexivity|]. apply G in Hx. destruct Hx as (Hx & Ex & Ux).
        apply NRow; [exact NC|exact C1|exact NG|exact Hx|exact Ux|lia|intros y Hy Uy Ly; eapply Mx; eauto|]. rewrite C. intros y Hy Uy Ey. apply M. apply G. rewrite <- Ex. auto.
      * set (row := good_in_row (table r) suc (Z.of_nat i)) in *. destruct (C28_sort_by_prefix node fst row k Hk FG') as [PS SS].
        assert (E : exists x, (if 2 <=? Z.of_nat (length row) then Ok (some_list (hd_error (sort_keys_cpm fst row k))) else Ok (some_list (hd_error row))) = Ok [x]
                    /\ In x row /\ forall y, In y row -> longer_or_closer k x y).
        { destruct (Z.leb_spec 2 (Z.of_nat (length row))) as [G2|G2].
          - destruct (sort_keys_cpm fst row k) as [|x l]; [apply Permutation_sym, Permutation_nil in PS; contradiction|].
            exists x. split; [reflexivity|]. split; [rewrite PS; left; reflexivity|]. intros y Hy. rewrite PS in Hy. inversion SS as [|? ? _ Fx]; subst.
            destruct Hy as [<-|Hy]; [right; split; [reflexivity|lia]|]. rewrite Forall_forall in Fx. apply Fx. exact Hy.
          - destruct row as [|x [|y l]]; [contradiction| |cbn in G2; lia]. exists x. split; [reflexivity|]. split; [left; reflexivity|].
            intros y [<-|[]]. right. split; [reflexivity|lia]. }
        destruct E as (x & -> & Hx & M). exists [x]. split; [reflexivity|]. apply G in Hx. destruct Hx as (Hx & Ex & Ux).
        apply NRow; [exact NC|exact C1|exact NG|exact Hx|exact Ux|lia|intros y Hy Uy Ly; eapply Mx; eauto|]. rewrite C. intros y Hy Uy Ey. apply M. apply G. rewrite <- Ex. auto.
    + exists []. split; [destruct (count =? 1); reflexivity|]. apply NNone; auto. intros y Hy Uy.
      destruct (Nat.le_gt_cases (shared (my r) (fst y)) (shared (my r) k)) as [C|]; [|lia]. exfalso.
      assert (Z0 : In y (good_in_row (table r) suc (Z.of_nat (shared (my r) (fst y))))) by (apply good_in_row_spec with (my r); auto; lia).
      rewrite Up in Z0 by lia. destruct Z0.
Qed.
