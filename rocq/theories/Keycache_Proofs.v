(** Proofs about the key cache. *)
From Verif Require Import Base Dhkey_Model Dhkey_Spec Dhkey_Proofs Rbtree_Model Rbtree_Spec Rbtree_Proofs Keycache_Model Keycache_Spec.

(** ** Sorting *)
Section Sorting.
Context {A : Type} (before : A -> A -> bool) (rank : A -> Z).

Lemma exchange_spec (l : list A) : forall x, (forall a b, In a (x :: l) -> In b (x :: l) -> before a b = (rank a <? rank b)) ->
  Permutation (x :: l) (fst (exchange before x l) :: snd (exchange before x l)) /\
  (forall y, In y (snd (exchange before x l)) -> rank (fst (exchange before x l)) <= rank y) /\
  rank (fst (exchange before x l)) <= rank x /\ length (snd (exchange before x l)) = length l.
Proof.
  induction l as [|y l IH]; intros x R; cbn [exchange].
  - cbn. split; [apply Permutation_refl|]. split; [intros ? []|]. split; [lia|reflexivity].
  - rewrite (R y x) by (cbn; auto). destruct (rank y <? rank x) eqn:E; cbn [fst snd].
    + destruct (IH y) as (P & M & L & N); [intros a b Ha Hb; apply R; cbn in *; tauto|].
      split; [|split; [|split; [|cbn; rewrite N; reflexivity]]].
      * transitivity (x :: fst (exchange before y l) :: snd (exchange before y l)); [|apply perm_swap].
        constructor. exact P.
      * intros z [<-|Hz]; [lia|auto].
      * lia.
    + destruct (IH x) as (P & M & L & N); [intros a b Ha Hb; apply R; cbn in *; tauto|].
      split; [|split; [|split; [|cbn; rewrite N; reflexivity]]].
      * transitivity (y :: x :: l); [apply perm_swap|].
        transitivity (y :: fst (exchange before x l) :: snd (exchange before x l)); [constructor; exact P|apply perm_swap].
      * intros z [<-|Hz]; [lia|auto].
      * lia.
Qed.

Lemma exchange_all_spec n : forall l : list A, length l = n ->
  (forall a b, In a l -> In b l -> before a b = (rank a <? rank b)) ->
  Permutation l (exchange_all before n l) /\ StronglySorted (fun x y => rank x <= rank y) (exchange_all before n l).
Proof.
  induction n as [|n IH]; intros [|x l] L R; try discriminate; cbn [exchange_all].
  - split; [apply Permutation_refl|constructor].
  - cbn in L. destruct (exchange_spec l x R) as (P & M & _ & N).
    assert (R' : forall a b, In a (snd (exchange before x l)) -> In b (snd (exchange before x l)) -> before a b = (rank a <? rank b)).
    { intros a b Ha Hb. apply R; eapply Permutation_in; try (symmetry; exact P); right; assumption. }
    destruct (IH (snd (exchange before x l))) as [P2 S2]; [lia|exact R'|].
    split; [rewrite P at 1; constructor; exact P2|].
    constructor; [exact S2|]. apply Forall_forall. intros y Hy. apply M. eapply Permutation_in; [symmetry; exact P2|exact Hy].
Qed.

(** Inversions *)
Fixpoint below (x : A) (l : list A) : nat := match l with [] => O | y :: l' => ((if (rank y <? rank x)%Z then 1 else 0) + below x l')%nat end.
Fixpoint inversions (l : list A) : nat := match l with [] => O | x :: l' => (below x l' + inversions l')%nat end.

Lemma below_app x l1 l2 : below x (l1 ++ l2) = (below x l1 + below x l2)%nat.
Proof. induction l1 as [|y l1 IH]; cbn; [reflexivity|]. rewrite IH. lia. Qed.
Lemma below_le x l : (below x l <= length l)%nat.
Proof. induction l as [|y l IH]; cbn; [lia|]. destruct (rank y <? rank x); lia. Qed.
Lemma below_none x l : (forall y, In y l -> rank x <= rank y) -> below x l = O.
Proof.
  induction l as [|y l IH]; intros H; cbn; [reflexivity|]. rewrite IH by (intros; apply H; right; auto).
  pose proof (H y (or_introl eq_refl)). destruct (rank y <? rank x) eqn:E; lia.
Qed.
Lemma below_perm x l l' : Permutation l l' -> below x l = below x l'.
Proof. induction 1; cbn; lia. Qed.

Lemma inversions_swap a x y b : rank y < rank x -> (forall z, In z a -> rank x <= rank z) ->
  (inversions (y :: a ++ x :: b) < inversions (x :: a ++ y :: b))%nat.
Proof.
  intros L H. cbn [inversions].
  assert (E : (inversions (a ++ x :: b) + below y b <= inversions (a ++ y :: b) + below x b)%nat).
  { clear - before L H. induction a as [|z a IH]; cbn [app inversions].
    - lia.
    - specialize (IH ltac:(intros; apply H; right; auto)). rewrite !below_app. cbn [below].
      pose proof (H z (or_introl eq_refl)). destruct (rank x <? rank z) eqn:E1, (rank y <? rank z) eqn:E2; lia. }
  rewrite !below_app. cbn [below]. rewrite (below_none y a) by (intros z Hz; specialize (H z Hz); lia).
  rewrite (below_none x a) by auto. destruct (rank x <? rank y) eqn:E1, (rank y <? rank x) eqn:E2; lia.
Qed.

Lemma swap_first_spec (l : list A) x : (forall a b, In a (x :: l) -> In b (x :: l) -> before a b = (rank a <? rank b)) ->
  match swap_first before x l with
  | None => forall y, In y l -> rank x <= rank y
  | Some (y, r) => exists a b, l = a ++ y :: b /\ r = a ++ x :: b /\ rank y < rank x /\ (forall z, In z a -> rank x <= rank z)
  end.
Proof.
  induction l as [|y l IH]; intros R; cbn [swap_first]; [intros ? []|].
  rewrite (R y x) by (cbn; auto). destruct (rank y <? rank x) eqn:E.
  - exists [], l. cbn. repeat split; auto; [lia|intros ? []].
  - specialize (IH ltac:(intros a b Ha Hb; apply R; cbn in *; tauto)).
    destruct (swap_first before x l) as [[z r]|].
    + destruct IH as (a & b & -> & -> & L & M). exists (y :: a), b. cbn. repeat split; auto. intros w [<-|Hw]; [lia|auto].
    + intros z [<-|Hz]; [lia|auto].
Qed.

Lemma inversions_cons_perm x l l' : Permutation l l' -> (inversions l' <= inversions l)%nat ->
  (inversions (x :: l') <= inversions (x :: l))%nat.
Proof. intros P L. cbn. rewrite (below_perm x _ _ P). lia. Qed.

Lemma pass_spec n : forall l : list A, length l = n -> (forall a b, In a l -> In b l -> before a b = (rank a <? rank b)) ->
  Permutation l (fst (pass before n l)) /\
  (if snd (pass before n l) then (inversions (fst (pass before n l)) < inversions l)%nat
   else fst (pass before n l) = l /\ StronglySorted (fun x y => rank x <= rank y) l).
Proof.
  induction n as [|n IH]; intros [|x l] L R; try discriminate; cbn [pass].
  - split; [apply Permutation_refl|]. cbn. split; [reflexivity|constructor].
  - cbn in L. pose proof (swap_first_spec l x R) as S. destruct (swap_first before x l) as [[y r]|]; cbn [fst snd].
    + destruct S as (a & b & El & Er & Ly & La).
      assert (P : Permutation (x :: l) (y :: r)).
      { rewrite El, Er. transitivity (x :: y :: a ++ b); [constructor; symmetry; apply Permutation_middle|].
        rewrite perm_swap. constructor. apply Permutation_middle. }
      assert (R' : forall a b, In a r -> In b r -> before a b = (rank a <? rank b)).
      { intros c d Hc Hd. apply R; (eapply Permutation_in; [symmetry; exact P|right; assumption]). }
      assert (Lr : length r = n) by (apply Permutation_length in P; cbn in P; lia).
      destruct (IH r Lr R') as [P2 I2]. split; [rewrite P; constructor; exact P2|].
      assert (I1 : (inversions (y :: r) < inversions (x :: l))%nat) by (rewrite El, Er; apply inversions_swap; auto).
      assert (I3 : (inversions (fst (pass before n r)) <= inversions r)%nat).
      { destruct (snd (pass before n r)); [lia|]. destruct I2 as [-> _]. lia. }
      pose proof (inversions_cons_perm y r _ P2 I3). lia.
    + destruct (IH l) as [P2 I2]; [lia|intros a b Ha Hb; apply R; right; auto|].
      split; [constructor; exact P2|]. destruct (snd (pass before n l)).
      * cbn [inversions]. rewrite (below_perm x _ _ P2). lia.
      * destruct I2 as [E2 S2]. rewrite E2. split; [reflexivity|]. constructor; [exact S2|]. apply Forall_forall. exact S.
Qed.

Lemma passes_spec m : forall l : list A, (inversions l <= m)%nat -> (forall a b, In a l -> In b l -> before a b = (rank a <? rank b)) ->
  exists l', (forall fuel, (m < fuel)%nat -> passes before fuel l = Some l') /\ Permutation l l' /\
    StronglySorted (fun x y => rank x <= rank y) l'.
Proof.
  induction m as [m IH] using lt_wf_ind. intros l Lm R.
  destruct (pass_spec (length l) l eq_refl R) as [P I].
  destruct (snd (pass before (length l) l)) eqn:E.
  - destruct (IH (pred m)) with (l := fst (pass before (length l) l)) as (l' & H & P' & S'); [lia|lia| |].
    { intros a b Ha Hb. apply R; (eapply Permutation_in; [symmetry; exact P|assumption]). }
    exists l'. split; [|split; [rewrite P; exact P'|exact S']].
    intros [|fuel] Lf; [lia|]. cbn [passes]. rewrite E. apply H. lia.
  - destruct I as [E2 S2]. exists l. split; [|split; [apply Permutation_refl|exact S2]].
    intros [|fuel] Lf; [lia|]. cbn [passes]. rewrite E, E2. reflexivity.
Qed.

Lemma inversions_bound l : (inversions l <= length l * length l)%nat.
Proof. induction l as [|x l IH]; cbn; [lia|]. pose proof (below_le x l). nia. Qed.
End Sorting.

(** ** Ranks *)
Lemma index_range a b : wf_key a -> wf_key b -> 0 <= np_dhkey_index a b <= 64.
Proof.
  intros Ha Hb. rewrite index_spec by auto. pose proof (common_prefix_le (np_dhkey_str a) (np_dhkey_str b)) as H.
  rewrite str_length in H by auto. lia.
Qed.

Section Lists.
Context {A : Type} (dh : A -> key).

Lemma kd_before_rank target x y : wf_key target -> wf_key (dh x) -> wf_key (dh y) ->
  kd_before dh target y x = (distance_to target (dh y) <? distance_to target (dh x)).
Proof.
  intros Ht Hx Hy. unfold kd_before, distance_to. rewrite cmp_sgn by (apply distance_wf; auto). rewrite sgn_ltb0. lia.
Qed.

Definition cpm_rank (target : key) (x : A) : Z :=
  (64 - Z.of_nat (prefix_with target (dh x))) * ring + distance_to target (dh x).

Lemma distance_range target x : wf_key target -> wf_key x -> 0 <= distance_to target x < ring.
Proof. intros Ht Hx. apply wf_kval_range. apply distance_wf; auto. Qed.

Lemma cpm_rank_le target x y : wf_key target -> wf_key (dh x) -> wf_key (dh y) ->
  (cpm_rank target x <= cpm_rank target y <->
   (prefix_with target (dh x) > prefix_with target (dh y))%nat \/
   prefix_with target (dh x) = prefix_with target (dh y) /\ distance_to target (dh x) <= distance_to target (dh y)).
Proof.
  intros Ht Hx Hy. unfold cpm_rank. pose proof (distance_range target _ Ht Hx) as D1. pose proof (distance_range target _ Ht Hy) as D2.
  set (p := prefix_with target (dh x)) in *. set (q := prefix_with target (dh y)) in *.
  set (d := distance_to target (dh x)) in *. set (e := distance_to target (dh y)) in *.
  clearbody p q d e. generalize dependent ring. intros R D1 D2. clear - D1 D2.
  destruct (lt_eq_lt_dec p q) as [[L|E]|L]; [| |].
  - split; [intros H|lia]. exfalso. assert (Z.of_nat p + 1 <= Z.of_nat q) by lia. nia.
  - subst. split; [intros H; right; lia|intros [H|H]; [lia|]]. lia.
  - split; [intros H; left; lia|intros _]. assert (Z.of_nat q + 1 <= Z.of_nat p) by lia. nia.
Qed.

Lemma cpm_before_rank target x y : wf_key target -> wf_key (dh x) -> wf_key (dh y) ->
  cpm_before dh target y x = (cpm_rank target y <? cpm_rank target x).
Proof.
  intros Ht Hx Hy. pose proof (cpm_rank_le target x y Ht Hx Hy) as R. unfold cpm_before.
  rewrite !index_spec by auto. fold (prefix_with target (dh x)) (prefix_with target (dh y)).
  rewrite cmp_sgn by (apply distance_wf; auto). fold (distance_to target (dh y)) (distance_to target (dh x)). rewrite sgn_ltb0.
  destruct (cpm_rank target y <? cpm_rank target x) eqn:E.
  - assert (N : ~ cpm_rank target x <= cpm_rank target y) by lia. rewrite R in N.
    rewrite Z.gtb_ltb. destruct (Z.ltb_spec (Z.of_nat (prefix_with target (dh x))) (Z.of_nat (prefix_with target (dh y)))); [reflexivity|].
    destruct (Z.eqb_spec (Z.of_nat (prefix_with target (dh x))) (Z.of_nat (prefix_with target (dh y)))); lia.
  - assert (N : cpm_rank target x <= cpm_rank target y) by lia. rewrite R in N.
    rewrite Z.gtb_ltb. destruct (Z.ltb_spec (Z.of_nat (prefix_with target (dh x))) (Z.of_nat (prefix_with target (dh y)))); [lia|].
    destruct (Z.eqb_spec (Z.of_nat (prefix_with target (dh x))) (Z.of_nat (prefix_with target (dh y)))); lia.
Qed.

Lemma closest_loop_spec target (l : list A) : wf_key target -> Forall (fun x => wf_key (dh x)) l ->
  forall x, wf_key (dh x) -> exists y, closest_loop dh target l false (np_dhkey_distance target (dh x)) (Some x) = Some y /\
    In y (x :: l) /\ forall z, In z (x :: l) -> distance_to target (dh y) <= distance_to target (dh z).
Proof.
  intros Ht F. induction F as [|a l Ha F IH]; intros x Hx.
  - exists x. cbn. split; [reflexivity|]. split; [auto|]. intros z [<-|[]]. lia.
  - cbn [closest_loop orb].
    assert (E : (np_dhkey_cmp (np_dhkey_distance target (dh a)) (np_dhkey_distance target (dh x)) <=? 0) =
                (distance_to target (dh a) <=? distance_to target (dh x))).
    { rewrite cmp_sgn by (apply distance_wf; auto). unfold distance_to. rewrite !(distance_sym _ target) by auto.
      rewrite !(distance_sym target) by auto. 
      destruct (Z.leb_spec (kval (np_dhkey_distance (dh a) target)) (kval (np_dhkey_distance (dh x) target))); lia. }
    rewrite E. destruct (Z.leb_spec (distance_to target (dh a)) (distance_to target (dh x))) as [L|L].
    + destruct (IH a Ha) as (y & Ey & Iy & M). exists y. split; [exact Ey|]. split; [cbn in *; tauto|].
      intros z [<-|Hz]; [|auto]. specialize (M a (or_introl eq_refl)). lia.
    + destruct (IH x Hx) as (y & Ey & Iy & M). exists y. split; [exact Ey|]. split; [cbn in *; tauto|].
      intros z [<-|[<-|Hz]]; [apply M; left; reflexivity| |apply M; right; exact Hz].
      specialize (M x (or_introl eq_refl)). lia.
Qed.
End Lists.

(** ** The cache as a map *)
Lemma zcompare_order : total_order Z.compare.
Proof.
  split.
  - apply Z.compare_eq_iff.
  - intros x y. apply Z.compare_antisym.
  - intros x y z. rewrite !Z.compare_lt_iff. lia.
Qed.

Definition value (e : entry) : Z := kval (fst e).
Notation by_key := (sorted Z.compare value).

Lemma cmp_agrees k x : wf_key (fst k) -> wf_key (fst x) -> agrees Z.compare entry_cmp value k x.
Proof.
  intros Hk Hx. unfold agrees, entry_cmp, value. rewrite cmp_sgn by auto. rewrite Z.compare_lt_iff, Z.compare_eq_iff. lia.
Qed.

Record Ok_cache (c : cache) (m : key -> option Z) : Prop := {
  ok_proper : proper (entries c);
  ok_keys : Forall (fun e => wf_key (fst e)) (elements (entries c));
  ok_sorted : by_key (elements (entries c));
  ok_map : forall k o, wf_key k -> (m k = Some o <-> In (k, o) (elements (entries c)));
  ok_once : NoDup (map snd (elements (entries c)));
  ok_fresh : forall e, In e (elements (entries c)) -> snd e < fresh c }.

Lemma locate_key (t : tree entry) k o : wf_key k -> Forall (fun e => wf_key (fst e)) (elements t) -> by_key (elements t) ->
  match descend entry_cmp (k, o) t [] with
  | (q, Leaf) => exists a b, elements t = a ++ b /\ before q = a /\ after q = b /\
      (forall x, In x a -> kval (fst x) < kval k) /\ (forall x, In x b -> kval k < kval (fst x))
  | (q, Node c l x r) => exists a b, elements t = a ++ x :: b /\ a = before q ++ elements l /\ b = elements r ++ after q /\ fst x = k
  end.
Proof.
  intros Hk F So. destruct (descend entry_cmp (k, o) t []) as [q s] eqn:E.
  assert (Ag : Forall (agrees Z.compare entry_cmp value (k, o)) (elements t)).
  { eapply Forall_impl; [|exact F]. intros x Hx. apply cmp_agrees; auto. }
  destruct (descend_split Z.compare zcompare_order entry_cmp value (k, o) t q s E Ag So) as (lo & hi & Hlo & Hhi & El & H1 & H2 & H3).
  destruct s as [|c l x r].
  - exists lo, hi. cbn in El. split; [exact El|]. split; [exact Hlo|]. split; [exact Hhi|]. split.
    + intros x Hx. apply Z.compare_lt_iff. apply (H1 x Hx).
    + intros x Hx. apply Z.compare_lt_iff. apply (H2 x Hx).
  - exists (before q ++ elements l), (elements r ++ after q). rewrite Hlo, Hhi. split.
    + rewrite El. cbn. rewrite <- !app_assoc. reflexivity.
    + split; [reflexivity|]. split; [reflexivity|]. unfold value in H3. cbn in H3. symmetry. apply wf_kval_inj; auto.
      rewrite El in F. apply Forall_app in F as [_ F]. apply Forall_app in F as [F _]. cbn in F.
      apply Forall_app in F as [_ F]. inversion F; auto.
Qed.

Lemma sorted_unique l e x : by_key l -> In e l -> In x l -> fst e = fst x -> e = x.
Proof.
  intros So He Hx E. induction So as [|a l So IH F]; [destruct He|].
  rewrite Forall_forall in F. destruct He as [->|He], Hx as [->|Hx]; auto.
  - specialize (F x Hx). unfold value in F. rewrite E, Z.compare_refl in F. discriminate.
  - specialize (F e He). unfold value in F. rewrite E, Z.compare_refl in F. discriminate.
Qed.

Lemma search_spec c m k : Ok_cache c m -> wf_key k -> search c k = m k.
Proof.
  intros I Hk. unfold search, find.
  pose proof (locate_key (entries c) k 0 Hk (ok_keys _ _ I) (ok_sorted _ _ I)) as L.
  destruct (descend entry_cmp (k, 0) (entries c) []) as [q [|cc l x r]]; cbn [snd].
  - destruct L as (a & b & El & _ & _ & Ha & Hb). destruct (m k) as [o|] eqn:E; [|reflexivity]. exfalso.
    apply (ok_map _ _ I k o Hk) in E. rewrite El in E. apply in_app_or in E as [E|E]; [apply Ha in E|apply Hb in E]; cbn in E; lia.
  - destruct L as (a & b & El & _ & _ & Ex). destruct x as [xk o]. cbn in Ex. subst xk. symmetry.
    apply (ok_map _ _ I k o Hk). rewrite El. apply in_or_app. right. left. reflexivity.
Qed.

Definition set_map (m : key -> option Z) (k : key) (v : option Z) : key -> option Z :=
  fun x => if list_eq_dec Z.eq_dec x k then v else m x.

Lemma create_spec c m k : Ok_cache c m -> wf_key k -> m k = None ->
  exists c', np_keycache_create c k = Ok (c', fresh c) /\ Ok_cache c' (set_map m k (Some (fresh c))) /\
    refs c' = ref (fresh c) 1 (ref (fresh c) 1 (refs c)) /\ fresh c' = fresh c + 1 /\ check_from c' = check_from c.
Proof.
  intros I Hk Hm. unfold np_keycache_create, np_keycache_add. cbn [entries refs fresh check_from].
  set (e := (k, fresh c) : entry).
  destruct (insert_proper entry_cmp e (entries c) (ok_proper _ _ I)) as (t' & o & E & Pr). rewrite E. cbn [obind fst].
  eexists. split; [reflexivity|]. cbn [refs fresh check_from]. split; [|auto].
  pose proof (locate_key (entries c) k (fresh c) Hk (ok_keys _ _ I) (ok_sorted _ _ I)) as L. fold e in L.
  unfold insert in E. destruct (descend entry_cmp e (entries c) []) as [q [|cc l x r0]].
  2:{ exfalso. destruct L as (a & b & El & _ & _ & Ex). destruct x as [xk w]. cbn in Ex. subst xk.
      assert (m k = Some w) by (apply (ok_map _ _ I k w Hk); rewrite El; apply in_or_app; right; left; reflexivity). congruence. }
  destruct L as (a & b & El & Haq & Hbq & Ha & Hb).
  destruct (insert_color q (Node Red Leaf e Leaf)) as [r1| |] eqn:Ec; try discriminate. cbn in E.
  assert (r1 = t') by (injection E; auto). subst r1. clear E.
  apply insert_color_elements in Ec. cbn in Ec. rewrite Haq, Hbq in Ec.
  pose proof (ok_keys _ _ I) as F. pose proof (ok_sorted _ _ I) as So. pose proof (ok_once _ _ I) as N. rewrite El in F, So, N.
  split; cbn [entries fresh].
  - exact Pr.
  - rewrite Ec. apply Forall_app in F as [F1 F2]. apply Forall_app. split; [exact F1|]. constructor; [exact Hk|exact F2].
  - rewrite Ec. apply sorted_app in So as (S1 & S2 & S3). apply sorted_app. split; [exact S1|]. split.
    + constructor; [exact S2|]. apply Forall_forall. intros x Hx. apply Z.compare_lt_iff. apply Hb; exact Hx.
    + intros x y Hx [<-|Hy]; [apply Z.compare_lt_iff; apply Ha; exact Hx|auto].
  - intros k' o' Hk'. rewrite Ec. unfold set_map. destruct (list_eq_dec Z.eq_dec k' k) as [->|D].
    + split.
      * intros H. assert (o' = fresh c) by congruence. subst. apply in_or_app. right. left. reflexivity.
      * intros H. apply in_app_or in H as [H|[H|H]]; [apply Ha in H; cbn in H; lia|unfold e in H; congruence|apply Hb in H; cbn in H; lia].
    + rewrite (ok_map _ _ I k' o' Hk'), El, !in_app_iff. cbn. split; [tauto|].
      intros [H|[H|H]]; auto. exfalso. unfold e in H. congruence.
  - rewrite Ec, map_app. cbn [map]. apply (Permutation_NoDup (l := fresh c :: map snd (a ++ b))).
    + rewrite map_app. apply Permutation_middle.
    + constructor; [|exact N]. intros H. apply in_map_iff in H as (x & Hx & Hin). rewrite <- El in Hin.
      apply (ok_fresh _ _ I) in Hin. lia.
  - intros x Hx. rewrite Ec in Hx. apply in_app_or in Hx as [Hx|[<-|Hx]]; [|cbn; lia|];
      (assert (In x (elements (entries c))) as Hin by (rewrite El; apply in_or_app; auto); apply (ok_fresh _ _ I) in Hin; lia).
Qed.

Lemma remove_spec c m k : Ok_cache c m -> wf_key k ->
  exists c', np_keycache_remove c k = Ok (c', m k) /\ Ok_cache c' (set_map m k None) /\ fresh c' = fresh c /\
    check_from c' = check_from c /\ refs c' = match m k with Some o => ref o (-1) (refs c) | None => refs c end.
Proof.
  intros I Hk. unfold np_keycache_remove. 
  destruct (find_remove_proper entry_cmp (k, 0) (entries c) (ok_proper _ _ I)) as (t' & o & E & Pr). rewrite E. cbn [obind fst snd].
  pose proof (locate_key (entries c) k 0 Hk (ok_keys _ _ I) (ok_sorted _ _ I)) as L.
  unfold find_remove in E. destruct (descend entry_cmp (k, 0) (entries c) []) as [q [|cc l x r0]].
  - assert (t' = entries c /\ o = None) as [-> ->] by (injection E; auto).
    destruct L as (a & b & El & _ & _ & Ha & Hb).
    assert (m k = None) as Em.
    { destruct (m k) as [w|] eqn:Em; [|reflexivity]. exfalso. apply (ok_map _ _ I k w Hk) in Em. rewrite El in Em.
      apply in_app_or in Em as [H|H]; [apply Ha in H|apply Hb in H]; cbn in H; lia. }
    rewrite Em. exists c. split; [reflexivity|]. split; [|auto]. destruct I as [I1 I2 I3 I4 I5 I6]. split; auto.
    intros k' o' Hk'. unfold set_map. destruct (list_eq_dec Z.eq_dec k' k) as [->|D]; [|auto]. rewrite <- I4 by auto. rewrite Em. reflexivity.
  - destruct (remove_node q cc l r0) as [r1| |] eqn:Er; try discriminate. cbn in E.
    assert (r1 = t' /\ o = Some x) as [-> ->] by (injection E; auto). clear E.
    destruct L as (a & b & El & Ha & Hb & Ex). destruct x as [xk w]. cbn in Ex. subst xk.
    assert (Em : m k = Some w) by (apply (ok_map _ _ I k w Hk); rewrite El; apply in_or_app; right; left; reflexivity).
    rewrite Em. cbn [snd]. eexists. split; [reflexivity|]. cbn [fresh check_from refs]. split; [|auto].
    apply remove_node_elements in Er. assert (Ee : elements t' = a ++ b) by (rewrite Er, Ha, Hb, <- !app_assoc; reflexivity).
    clear Ha Hb Er. pose proof (ok_keys _ _ I) as F. pose proof (ok_sorted _ _ I) as So. pose proof (ok_once _ _ I) as N. rewrite El in F, So, N.
    pose proof So as So'. apply sorted_app in So' as (S1 & S2 & S3). inversion S2 as [|? ? S2' F2]; subst. rewrite Forall_forall in F2.
    split; cbn [entries fresh].
    + exact Pr.
    + rewrite Ee. apply Forall_app in F as [F1 F3]. inversion F3; subst. apply Forall_app. auto.
    + rewrite Ee. apply sorted_app. split; [exact S1|]. split; [exact S2'|]. intros; apply S3; [assumption|right; assumption].
    + intros k' o' Hk'. rewrite Ee. unfold set_map. destruct (list_eq_dec Z.eq_dec k' k) as [->|D].
      * split; [discriminate|]. intros H. exfalso. apply in_app_or in H as [H|H].
        -- specialize (S3 _ (k, w) H (or_introl eq_refl)). unfold value in S3. cbn in S3. rewrite Z.compare_refl in S3. discriminate.
        -- specialize (F2 _ H). unfold value in F2. cbn in F2. rewrite Z.compare_refl in F2. discriminate.
      * rewrite (ok_map _ _ I k' o' Hk'), El, !in_app_iff. cbn. split; [|tauto]. intros [H|[H|H]]; auto. exfalso. congruence.
    + rewrite Ee. rewrite map_app in *. cbn [map] in N. apply NoDup_remove_1 in N. exact N.
    + intros x Hx. rewrite Ee in Hx. apply (ok_fresh _ _ I). rewrite El. apply in_app_or in Hx. apply in_or_app. cbn. tauto.
Qed.

Lemma init_ok : Ok_cache np_keycache_init (fun _ => None).
Proof.
  split; cbn; try (constructor; fail).
  - split; [reflexivity|]. exists O. constructor.
  - intros k o _. split; [discriminate|intros []].
  - intros ? [].
Qed.

Lemma ok_ext c m m' : (forall k, m k = m' k) -> Ok_cache c m -> Ok_cache c m'.
Proof. intros E [I1 I2 I3 I4 I5 I6]. split; auto. intros k o Hk. rewrite <- E. auto. Qed.
Lemma ok_refs c m r f : Ok_cache c m -> Ok_cache (mkCache (entries c) r (fresh c) f) m.
Proof. intros [I1 I2 I3 I4 I5 I6]. split; auto. Qed.

Lemma check_loop_in ks : forall it on i k, In k (fst (check_loop ks it on i)) -> In k ks.
Proof.
  induction ks as [|x ks IH]; intros it on i k H; cbn [check_loop] in H; [destruct H|].
  set (it1 := if np_dhkey_equal (repeat 0 8) it then x else it) in *.
  set (hit := (np_dhkey_equal x it1 || on) && (i <? iteration_steps)) in *.
  destruct (iteration_steps <=? (if hit then i + 1 else i)); cbn [fst] in H.
  - destruct hit; [destruct H as [<-|[]]; left; reflexivity|destruct H].
  - apply in_app_or in H as [H|H]; [destruct hit; [destruct H as [<-|[]]; left; reflexivity|destruct H]|right; eapply IH; exact H].
Qed.

Lemma check_loop_from ks : Forall wf_key ks -> forall it on i, wf_key it -> wf_key (snd (check_loop ks it on i)).
Proof.
  induction 1 as [|x ks Hx F IH]; intros it on i Hi; cbn [check_loop].
  - cbn. destruct (i <? iteration_steps); [exact min_wf|exact Hi].
  - destruct (iteration_steps <=? _); cbn [snd]; [exact Hx|]. apply IH. destruct (np_dhkey_equal (repeat 0 8) it); assumption.
Qed.

(** The whole picture after a history *)
Record Good (c : cache) (m : key -> option Z) (known : Z -> Prop) (h : list (call * answer)) : Prop := {
  g_ok : Ok_cache c m;
  g_wf : forall k, m k <> None -> wf_key k;
  g_known : forall o, known o -> o < fresh c;
  g_in : forall k o, m k = Some o -> refs c o = held o h + 1;
  g_out : forall o, (forall k, m k <> Some o) -> refs c o = held o h;
  g_from : wf_key (check_from c) }.

Lemma held_snoc o h xa : held o (h ++ [xa]) = held o h + got o xa.
Proof. unfold held. induction h as [|x h IH]; cbn [app fold_right]; [lia|]. rewrite IH. lia. Qed.

Lemma ref_fold l : forall r o, fold_left (fun r (e : entry) => ref (snd e) 1 r) l r o = r o + Z.of_nat (length (filter (fun e => snd e =? o) l)).
Proof.
  induction l as [|e l IH]; intros r o; cbn [fold_left filter length]; [lia|]. rewrite IH. unfold ref at 1.
  rewrite (Z.eqb_sym o). destruct (snd e =? o); cbn [length]; lia.
Qed.

Lemma good_refs c m known h r f xa : Good c m known h -> (forall o, r o = refs c o + got o xa) -> (forall o, snd xa = Obj (Some o) -> o < fresh c) -> wf_key f ->
  Good (mkCache (entries c) r (fresh c) f) m (fun o => known o \/ snd xa = Obj (Some o)) (h ++ [xa]).
Proof.
  intros [G1 G2 G3 G4 G5 G6] R K Wf. split; cbn [refs fresh check_from].
  - apply ok_refs. exact G1.
  - exact G2.
  - intros o [H|H]; auto.
  - intros k o Hk. rewrite R, held_snoc, (G4 k o Hk). lia.
  - intros o Hk. rewrite R, held_snoc, (G5 o Hk). lia.
  - exact Wf.
Qed.

Lemma good_map c m m' known h : (forall k, m k = m' k) -> Good c m known h -> Good c m' known h.
Proof.
  intros E [G1 G2 G3 G4 G5 G6]. split.
  - eapply ok_ext; eauto.
  - intros k. rewrite <- E. auto.
  - auto.
  - intros k o. rewrite <- E. apply G4.
  - intros o H. apply G5. intros k. rewrite E. apply H.
  - exact G6.
Qed.

Lemma object_once c m k k' o : Ok_cache c m -> wf_key k -> wf_key k' -> m k = Some o -> m k' = Some o -> k = k'.
Proof.
  intros I Hk Hk' E E'. apply (ok_map _ _ I k o Hk) in E. apply (ok_map _ _ I k' o Hk') in E'.
  pose proof (ok_once _ _ I) as N. clear - N E E'. induction (elements (entries c)) as [|x l IH]; [destruct E|].
  cbn in N. inversion N as [|? ? N1 N2]; subst. destruct E as [->|E], E' as [E'|E']; auto.
  - congruence.
  - exfalso. apply N1. apply in_map_iff. exists (k', o). auto.
  - subst x. exfalso. apply N1. apply in_map_iff. exists (k, o). auto.
Qed.

Lemma perform_good c m known h x : Good c m known h -> (forall k, call_key x = Some k -> wf_key k) ->
  exists c' a, perform c x = Ok (c', a) /\ right m known x a /\
    Good c' (bound [(x, a)] m) (fun o => known o \/ a = Obj (Some o)) (h ++ [(x, a)]).
Proof.
  intros G W. pose proof G as [G1 G2 G3 G4 G5 G6]. destruct x as [k|k|k|k| |o|]; cbn [perform call_key] in *.
  - (* find or create *)
    specialize (W k eq_refl). unfold np_keycache_find_or_create. rewrite (search_spec c m k G1 W).
    destruct (m k) as [o|] eqn:E.
    + cbn [obind fst snd]. eexists _, _. split; [reflexivity|]. split; [cbn; auto|].
      apply (good_map _ m).
      { intros k'. cbn. destruct (list_eq_dec Z.eq_dec k' k) as [->|]; auto. }
      apply (good_refs c m known h _ (check_from c) (FindOrCreate k, Obj (Some o))); auto.
      * intros p. unfold ref. cbn [got]. rewrite (Z.eqb_sym o). destruct (p =? o); lia.
      * cbn. intros p Hp. assert (p = o) by congruence. subst. apply (ok_map _ _ G1 k o W) in E. apply (ok_fresh _ _ G1) in E. exact E.
    + destruct (create_spec c m k G1 W E) as (c' & Ec & Ic & Rc & Fc & Cc). rewrite Ec. cbn [obind fst snd].
      eexists _, _. split; [reflexivity|]. split.
      { cbn. right. split; [exact E|]. intros Hn. apply G3 in Hn. lia. }
      split.
      * exact Ic.
      * intros k'. cbn. destruct (list_eq_dec Z.eq_dec k' k) as [->|]; auto.
      * intros o [Ho|Ho]; [apply G3 in Ho; lia|]. assert (o = fresh c) by congruence. lia.
      * assert (Z0 : refs c (fresh c) = held (fresh c) h).
        { apply G5. intros k' H. assert (wf_key k') as Hk' by (apply G2; congruence).
          apply (ok_map _ _ G1 k' _ Hk') in H. apply (ok_fresh _ _ G1) in H. cbn in H. lia. }
        intros k' o. cbn [bound]. rewrite Rc, held_snoc. unfold ref. cbn [got]. rewrite (Z.eqb_sym (fresh c)).
        destruct (list_eq_dec Z.eq_dec k' k) as [->|D].
        -- intros H. assert (o = fresh c) by congruence. subst. rewrite Z.eqb_refl. lia.
        -- intros H. pose proof (G4 k' o H) as R. destruct (o =? fresh c) eqn:Eo; [|lia]. exfalso.
           assert (wf_key k') as Hk' by (apply G2; congruence). apply (ok_map _ _ G1 k' _ Hk') in H.
           apply (ok_fresh _ _ G1) in H. cbn in H. lia.
      * intros o H. rewrite Rc, held_snoc. unfold ref. cbn [got]. rewrite (Z.eqb_sym (fresh c)).
        destruct (o =? fresh c) eqn:Eo.
        -- exfalso. apply (H k). cbn. destruct (list_eq_dec Z.eq_dec k k); [f_equal; lia|congruence].
        -- rewrite (G5 o); [lia|]. intros k' H'. apply (H k'). cbn. destruct (list_eq_dec Z.eq_dec k' k) as [->|]; [congruence|exact H'].
      * rewrite Cc. exact G6.
  - (* find *)
    specialize (W k eq_refl). unfold np_keycache_find. rewrite (search_spec c m k G1 W).
    destruct (m k) as [o|] eqn:E; cbn [fst snd]; eexists _, _; (split; [reflexivity|]); (split; [cbn; auto|]).
    + apply (good_map _ m); [intros; reflexivity|].
      apply (good_refs c m known h _ (check_from c) (Find k, Obj (Some o))); auto.
      * intros p. unfold ref. cbn [got]. rewrite (Z.eqb_sym o). destruct (p =? o); lia.
      * cbn. intros p Hp. assert (p = o) by congruence. subst. apply (ok_map _ _ G1 k o W) in E. apply (ok_fresh _ _ G1) in E. exact E.
    + apply (good_map _ m); [intros; reflexivity|]. destruct c as [e r f cf].
      apply (good_refs (mkCache e r f cf) m known h r cf (Find k, Obj None)); auto; [intros; cbn; lia|intros; discriminate].
  - (* exists *)
    specialize (W k eq_refl). unfold np_keycache_exists. rewrite (search_spec c m k G1 W). eexists _, _. split; [reflexivity|].
    split; [cbn; destruct (m k); split; congruence|].
    apply (good_map _ m); [intros; reflexivity|]. destruct c as [e r f cf].
    apply (good_refs (mkCache e r f cf) m known h r cf (Exists k, Bool _)); auto; [intros; cbn; lia|intros; discriminate].
  - (* remove *)
    specialize (W k eq_refl). destruct (remove_spec c m k G1 W) as (c' & Ec & Ic & Fc & Cc & Rc). rewrite Ec. cbn [obind fst snd].
    eexists _, _. split; [reflexivity|]. split; [reflexivity|]. split.
    + exact Ic.
    + intros k'. cbn. destruct (list_eq_dec Z.eq_dec k' k) as [->|]; [congruence|auto].
    + intros o [Ho|Ho]; [apply G3 in Ho; lia|]. assert (m k = Some o) as E by congruence.
      apply (ok_map _ _ G1 k o W) in E. apply (ok_fresh _ _ G1) in E. cbn in E. lia.
    + intros k' o. cbn [bound]. rewrite held_snoc. cbn [got]. destruct (list_eq_dec Z.eq_dec k' k) as [->|D]; [discriminate|].
      intros H. rewrite Rc. destruct (m k) as [p|] eqn:E; [|rewrite (G4 _ _ H); lia]. unfold ref.
      destruct (o =? p) eqn:Eo; [|rewrite (G4 _ _ H); lia]. exfalso. apply D. assert (o = p) by lia. subst.
      apply (object_once c m k' k p); auto. apply G2. congruence.
    + intros o H. rewrite held_snoc, Rc. cbn [got]. cbn [bound] in H.
      destruct (m k) as [p|] eqn:E.
      * unfold ref. destruct (o =? p) eqn:Eo.
        -- assert (o = p) by lia. subst. rewrite (G4 k p E). lia.
        -- rewrite (G5 o); [lia|]. intros k' H'. apply (H k'). cbn. destruct (list_eq_dec Z.eq_dec k' k) as [->|]; [|exact H'].
           exfalso. assert (o = p) by congruence. lia.
      * rewrite (G5 o); [lia|]. intros k' H'. apply (H k'). cbn. destruct (list_eq_dec Z.eq_dec k' k) as [->|]; [congruence|exact H'].
    + rewrite Cc. exact G6.
  - (* get_all *)
    unfold np_keycache_get_all. cbn [fst snd]. eexists _, _. split; [reflexivity|]. split.
    + cbn. split.
      * intros k o. split.
        -- intros H. assert (wf_key k) as Hk by (pose proof (ok_keys _ _ G1) as F; rewrite Forall_forall in F; apply (F _ H)).
           apply (ok_map _ _ G1 k o Hk). exact H.
        -- intros H. apply (ok_map _ _ G1 k o); [apply G2; congruence|exact H].
      * pose proof (ok_sorted _ _ G1) as So. unfold sorted in So. clear - So.
        induction So as [|a l So IH F]; constructor; [exact IH|]. eapply Forall_impl; [|exact F]. intros b Hb. apply Z.compare_lt_iff. exact Hb.
    + apply (good_map _ m); [intros; reflexivity|].
      apply (good_refs c m known h _ (check_from c) (GetAll, Objs _)); auto; [|intros; discriminate].
      intros o. rewrite ref_fold. cbn [got]. lia.
  - (* unref *)
    eexists _, _. split; [reflexivity|]. split; [exact I|].
    apply (good_map _ m); [intros; reflexivity|].
    apply (good_refs c m known h _ (check_from c) (Unref o, Done)); auto; [|intros; discriminate].
    intros p. unfold ref. cbn [got]. rewrite (Z.eqb_sym o). destruct (p =? o); lia.
  - (* check *)
    unfold np_keycache_exists_state. cbn [fst snd]. eexists _, _. split; [reflexivity|]. split.
    + cbn. intros k H. apply check_loop_in in H. apply in_map_iff in H as ([k' o] & <- & H). cbn.
      assert (wf_key k') as Hk by (pose proof (ok_keys _ _ G1) as F; rewrite Forall_forall in F; apply (F _ H)).
      apply (ok_map _ _ G1 k' o Hk) in H. congruence.
    + apply (good_map _ m); [intros; reflexivity|].
      apply (good_refs c m known h _ _ (Check, Keys _)); auto; [intros; cbn; lia|intros; discriminate|].
      apply check_loop_from; [|exact G6]. apply Forall_map. exact (ok_keys _ _ G1).
Qed.

Lemma bound_app h h' : forall m k, bound (h ++ h') m k = bound h' (bound h m) k.
Proof.
  induction h as [|[x a] h IH]; intros m k; [reflexivity|]. cbn [app]. destruct x; try apply IH. destruct a as [[o|]| | | |]; apply IH.
Qed.

Lemma performs_good xs : forall c m known h, Good c m known h -> Forall (fun x => forall k, call_key x = Some k -> wf_key k) xs ->
  exists c' ans known', performs c xs = Ok (c', ans) /\ length ans = length xs /\ all_right (combine xs ans) m known /\
    Good c' (bound (combine xs ans) m) known' (h ++ combine xs ans).
Proof.
  induction xs as [|x xs IH]; intros c m known h G F.
  - exists c, [], known. cbn. rewrite app_nil_r. auto.
  - inversion F as [|? ? Fx Fxs]; subst. destruct (perform_good c m known h x G Fx) as (c1 & a & E & R & G1).
    destruct (IH c1 _ _ _ G1 Fxs) as (c' & ans & known' & E' & L & R' & G').
    exists c', (a :: ans), known'. cbn [performs]. rewrite E. cbn [obind fst snd]. rewrite E'. cbn [obind fst snd combine length].
    split; [reflexivity|]. split; [congruence|]. split.
    + cbn [all_right]. split; [exact R|exact R'].
    + rewrite <- app_assoc in G'. cbn [app] in G'. eapply good_map; [|exact G'].
      intros k. rewrite <- (bound_app [(x, a)] (combine xs ans) m k). reflexivity.
Qed.

(** ** The periodic job *)
Lemma equal_refl_key k : np_dhkey_equal k k = true.
Proof. induction k as [|a k IH]; cbn; [reflexivity|]. rewrite Z.eqb_refl. exact IH. Qed.

(** Once the start is found, up to the limit *)
Lemma check_on ks : forall it i, 0 <= i < 11 ->
  fst (check_loop ks it true i) = firstn (Z.to_nat (11 - i)) ks /\
  snd (check_loop ks it true i) = (if 11 - i <=? Z.of_nat (length ks) then nth (Z.to_nat (10 - i)) ks [] else repeat 0 8).
Proof.
  induction ks as [|k ks IH]; intros it i H; cbn [check_loop length].
  - unfold iteration_steps. destruct (Z.ltb_spec i 11); [|lia]. cbn [fst snd]. rewrite firstn_nil. split; [reflexivity|].
    destruct (11 - i <=? Z.of_nat 0) eqn:E; [lia|reflexivity].
  - rewrite orb_true_r. unfold iteration_steps. replace (i <? 11) with true by lia. cbn [andb].
    destruct (Z.leb_spec 11 (i + 1)) as [L|L]; cbn [fst snd].
    + assert (i = 10) by lia. subst. split; [reflexivity|]. destruct (11 - 10 <=? Z.of_nat (S (length ks))) eqn:E; [reflexivity|lia].
    + destruct (IH (if np_dhkey_equal (repeat 0 8) it then k else it) (i + 1) ltac:(lia)) as [A B]. cbn [orb]. rewrite A, B. split.
      * replace (Z.to_nat (11 - i)) with (S (Z.to_nat (11 - (i + 1)))) by lia. reflexivity.
      * replace (Z.to_nat (10 - i)) with (S (Z.to_nat (10 - (i + 1)))) by lia.
        replace (11 - (i + 1) <=? Z.of_nat (length ks)) with (11 - i <=? Z.of_nat (S (length ks))) by lia.
        destruct (11 - i <=? Z.of_nat (S (length ks))); reflexivity.
Qed.

Lemma check_hit k ks it i : 0 <= i < 11 -> np_dhkey_equal k (if np_dhkey_equal (repeat 0 8) it then k else it) = true ->
  check_loop (k :: ks) it false i = check_loop (k :: ks) it true i.
Proof. intros H E. cbn [check_loop]. rewrite E. unfold iteration_steps. replace (i <? 11) with true by lia. reflexivity. Qed.

Definition zero_key : key := repeat 0 8.
Lemma zero_wf : wf_key zero_key.
Proof. exact min_wf. Qed.

(** Where the next run begins *)
Lemma check_zero ks : check_loop ks zero_key false 0 = check_loop ks zero_key true 0.
Proof. destruct ks as [|k ks]; [reflexivity|]. apply check_hit; [lia|]. fold zero_key. rewrite (equal_refl_key zero_key). apply equal_refl_key. Qed.

Lemma check_absent ks it : wf_key it -> Forall wf_key ks -> it <> zero_key -> ~ In it ks -> check_loop ks it false 0 = ([], zero_key).
Proof.
  intros Hi F Nz. assert (Z0 : np_dhkey_equal (repeat 0 8) it = false).
  { destruct (np_dhkey_equal (repeat 0 8) it) eqn:E; [|reflexivity]. apply (equal_spec zero_key it zero_wf Hi) in E. congruence. }
  induction F as [|k ks Hk F IH]; intros N; [reflexivity|]. cbn [check_loop]. rewrite Z0.
  assert (np_dhkey_equal k it = false) as ->.
  { destruct (np_dhkey_equal k it) eqn:E; [|reflexivity]. apply (equal_spec k it Hk Hi) in E. exfalso. apply N. left. exact E. }
  cbn. rewrite IH; [reflexivity|]. intros H. apply N. right. exact H.
Qed.

Lemma check_skip a ks it : wf_key it -> Forall wf_key a -> it <> zero_key -> ~ In it a ->
  check_loop (a ++ ks) it false 0 = check_loop ks it false 0.
Proof.
  intros Hi F Nz. assert (Z0 : np_dhkey_equal (repeat 0 8) it = false).
  { destruct (np_dhkey_equal (repeat 0 8) it) eqn:E; [|reflexivity]. apply (equal_spec zero_key it zero_wf Hi) in E. congruence. }
  induction F as [|k a Hk F IH]; intros N; [reflexivity|]. cbn [app check_loop]. rewrite Z0.
  assert (np_dhkey_equal k it = false) as ->.
  { destruct (np_dhkey_equal k it) eqn:E; [|reflexivity]. apply (equal_spec k it Hk Hi) in E. exfalso. apply N. left. exact E. }
  cbn [orb andb fst snd]. change (iteration_steps <=? 0) with false. cbv iota. rewrite IH by (intros H; apply N; right; exact H).
  destruct (check_loop ks it false 0); reflexivity.
Qed.

Definition all_keys (c : cache) : list key := map fst (elements (entries c)).
Definition from (c : cache) (it : key) : cache := mkCache (entries c) (refs c) (fresh c) it.

Lemma runs_from n : forall c it, check_runs (S n) (from c it) =
  fst (check_loop (all_keys c) it false 0) ++ check_runs n (from c (snd (check_loop (all_keys c) it false 0))).
Proof. reflexivity. Qed.

Lemma runs_more n : forall c k, In k (check_runs n c) -> forall m, (n <= m)%nat -> In k (check_runs m c).
Proof.
  induction n as [|n IH]; intros c k H m L; [destruct H|]. destruct m as [|m]; [lia|]. cbn [check_runs] in *.
  apply in_app_or in H as [H|H]; apply in_or_app; [auto|right]. apply IH; [exact H|lia].
Qed.

(** From position [length a] on *)
Lemma sweep c : NoDup (all_keys c) -> Forall wf_key (all_keys c) ->
  forall n a b it, all_keys c = a ++ b -> (length b <= n)%nat ->
  (it = zero_key /\ a = [] \/ wf_key it /\ it <> zero_key /\ exists b', b = it :: b') ->
  (a <> [] -> ~ In zero_key b) -> (forall x y, In x a -> In y b -> y <> zero_key) ->
  (b <> [] -> forall y, In y (tl b) -> y <> zero_key) ->
  exists r, (r <= length b / 10 + 1)%nat /\ (forall k, In k b -> In k (check_runs r (from c it))) /\
    forall m, check_runs (r + m) (from c it) = check_runs r (from c it) ++ check_runs m (from c zero_key).
Proof.
  intros Nd Wf. induction n as [n IH] using lt_wf_ind. intros a b it El Ln Hit _ _ Htl.
  assert (Run : check_loop (all_keys c) it false 0 = check_loop b it true 0).
  { destruct Hit as [[-> ->]|(Hi & Nz & b' & ->)].
    - rewrite El. apply check_zero.
    - rewrite El in *. rewrite check_skip; auto.
      + apply check_hit; [lia|]. destruct (np_dhkey_equal (repeat 0 8) it); apply equal_refl_key.
      + apply Forall_app in Wf as [W1 _]. exact W1.
      + apply NoDup_remove_2 in Nd. intros H. apply Nd. apply in_or_app. auto. }
  destruct (check_on b it 0 ltac:(lia)) as [A B]. change (Z.to_nat (11 - 0)) with 11%nat in A. change (Z.to_nat (10 - 0)) with 10%nat in B.
  destruct (Z.leb_spec (11 - 0) (Z.of_nat (length b))) as [L|L].
  - (* more to come *)
    assert (Hb : exists b1 k b2, b = b1 ++ k :: b2 /\ length b1 = 10%nat).
    { destruct (nth_split b [] (n := 10)) as (b1 & b2 & E & L1); [lia|]. eauto. }
    destruct Hb as (b1 & k & b2 & Eb & L1).
    assert (Ek : nth 10 b [] = k) by (rewrite Eb, app_nth2 by lia; rewrite L1; reflexivity).
    assert (Lb : length b = (11 + length b2)%nat) by (rewrite Eb, app_length; cbn; lia).
    assert (Wk : wf_key k) by (rewrite Forall_forall in Wf; apply Wf; rewrite El, Eb; apply in_or_app; right; apply in_or_app; right; left; reflexivity).
    assert (Nk : k <> zero_key).
    { destruct b1 as [|x b1]; [discriminate|]. apply (Htl ltac:(rewrite Eb; discriminate)). rewrite Eb. cbn. apply in_or_app. right. left. reflexivity. }
    destruct (IH (length (k :: b2))) with (a := a ++ b1) (b := k :: b2) (it := k) as (r & Lr & Vis & Cont).
    { cbn. lia. }
    { rewrite El, Eb, app_assoc. reflexivity. }
    { lia. }
    { right. eauto. }
    { intros _ H. destruct b1 as [|x b1]; [discriminate|]. apply (Htl ltac:(rewrite Eb; discriminate) zero_key); [|reflexivity].
      rewrite Eb. cbn. apply in_or_app. right. exact H. }
    { intros x y _ Hy E. destruct b1 as [|z b1]; [discriminate|]. apply (Htl ltac:(rewrite Eb; discriminate) y); [|exact E].
      rewrite Eb. cbn. apply in_or_app. right. exact Hy. }
    { intros _ y Hy. destruct b1 as [|x b1]; [discriminate|]. apply (Htl ltac:(rewrite Eb; discriminate)). rewrite Eb. cbn. apply in_or_app. right. right. exact Hy. }
    exists (S r). split; [|split].
    + rewrite Lb. replace (11 + length b2)%nat with (1 * 10 + length (k :: b2))%nat by (cbn; lia). rewrite Nat.div_add_l by lia. lia.
    + intros q Hq. rewrite runs_from, Run, A, B, Ek. apply in_or_app. rewrite Eb in Hq. apply in_app_or in Hq as [Hq|Hq].
      * left. rewrite Eb. rewrite firstn_app. apply in_or_app. left. rewrite firstn_all2 by lia. exact Hq.
      * right. apply Vis. exact Hq.
    + intros m. cbn [plus]. rewrite !runs_from, Run, B, Ek, Cont, app_assoc. reflexivity.
  - (* the end is reached *)
    exists 1%nat. split; [lia|]. split.
    + intros q Hq. rewrite runs_from, Run, A. apply in_or_app. left. rewrite firstn_all2 by lia. exact Hq.
    + intros m. cbn [plus]. rewrite !runs_from, Run, B, <- app_assoc. reflexivity.
Qed.

Lemma sorted_tail_nonzero c m : Ok_cache c m -> forall y, In y (tl (all_keys c)) -> y <> zero_key.
Proof.
  intros I y Hy ->. pose proof (ok_sorted _ _ I) as So. unfold all_keys in Hy. destruct (elements (entries c)) as [|e l] eqn:E; [destruct Hy|].
  cbn in Hy. inversion So as [|? ? _ F]; subst. rewrite Forall_forall in F. apply in_map_iff in Hy as (x & Ex & Hx). specialize (F x Hx).
  unfold value in F. rewrite Ex in F. rewrite Z.compare_lt_iff in F.
  assert (wf_key (fst e)) as We. { pose proof (ok_keys _ _ I) as W. rewrite E in W. inversion W; auto. }
  pose proof (wf_kval_range _ We) as R. change (kval [0; 0; 0; 0; 0; 0; 0; 0]) with 0 in F. lia.
Qed.

Lemma all_keys_nodup c m : Ok_cache c m -> NoDup (all_keys c).
Proof.
  intros I. pose proof (ok_sorted _ _ I) as So. unfold all_keys, sorted in *. induction So as [|e l So IH F]; cbn; [apply NoDup_nil|].
  constructor; [|exact IH]. intros H. apply in_map_iff in H as (x & Ex & Hx). rewrite Forall_forall in F. specialize (F x Hx).
  unfold value in F. rewrite Ex, Z.compare_refl in F. discriminate.
Qed.

Lemma checks_everything c m : Ok_cache c m -> wf_key (check_from c) ->
  forall k, In k (all_keys c) -> In k (check_runs (2 * (length (all_keys c) / 10 + 1)) c).
Proof.
  intros I Hf k Hk. pose proof (all_keys_nodup c m I) as Nd.
  assert (Wf : Forall wf_key (all_keys c)) by (apply Forall_map; exact (ok_keys _ _ I)).
  pose proof (sorted_tail_nonzero c m I) as Tz. set (n := length (all_keys c)) in *.
  assert (Full : exists r, (r <= n / 10 + 1)%nat /\ forall k, In k (all_keys c) -> In k (check_runs r (from c zero_key))).
  { destruct (sweep c Nd Wf n [] (all_keys c) zero_key) as (r & Lr & V & _); auto; try (cbn; intros; contradiction). exists r. auto. }
  destruct Full as (r0 & L0 & V0).
  assert (Ec : c = from c (check_from c)) by (destruct c; reflexivity).
  destruct (list_eq_dec Z.eq_dec (check_from c) zero_key) as [E|Nz].
  { rewrite Ec, E. apply (runs_more r0); [apply V0; exact Hk|lia]. }
  destruct (in_dec (list_eq_dec Z.eq_dec) (check_from c) (all_keys c)) as [Hin|Hout].
  - apply in_split in Hin as (a & b & El). change (list (list Z)) with (list key) in *.
    assert (Zb : forall y, In y b -> y <> zero_key).
    { intros y Hy. apply Tz. rewrite El. destruct a; cbn; [exact Hy|]. apply in_or_app. right. right. exact Hy. }
    destruct (sweep c Nd Wf n a (check_from c :: b) (check_from c)) as (r1 & L1 & _ & C1).
    + exact El.
    + unfold n. rewrite El, app_length. apply Nat.le_add_l.
    + right. eauto.
    + intros _ [H|H]; [congruence|]. exact (Zb _ H eq_refl).
    + intros x y _ [<-|Hy]; [exact Nz|auto].
    + intros _ y Hy. apply Zb. exact Hy.
    + assert (L2 : (r1 <= n / 10 + 1)%nat).
      { assert (length (check_from c :: b) <= n)%nat by (unfold n; rewrite El, app_length; apply Nat.le_add_l).
        pose proof (Nat.div_le_mono _ _ 10 ltac:(lia) H). lia. }
      apply (runs_more (r1 + r0)); [|lia]. rewrite Ec, C1. apply in_or_app. right. apply V0. exact Hk.
  - apply (runs_more (S r0)); [|lia]. rewrite Ec, runs_from, check_absent by auto. cbn [fst snd app]. apply V0. exact Hk.
Qed.
