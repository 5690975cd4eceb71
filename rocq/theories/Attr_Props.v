(** C16: attribute policies *)
From Verif Require Import Base Dhkey_Model Dhkey_Spec Dhkey_Proofs Bloom_Model Bloom_Spec Bloom_Nbf Data_Model Data_Spec Data_Proofs Attr_Model Attr_Spec.

Lemma made_inv a : made_block a -> exists n l, Inv n l a.
Proof.
  intros (b0 & n & b1 & ws & rs & R & M & E1 & G & F & E2).
  destruct (init_step b0 n R M) as (b1' & E1' & I1 & L1 & K1).
  assert (b1' = b1) by (rewrite E1 in E1'; injection E1'; auto). subst b1'.
  assert (HU : incl (map fst ws) (nodup (list_eq_dec Z.eq_dec) (map fst ws))) by (intros q Hq; apply nodup_In; exact Hq).
  destruct (writes_inv n _ F ws [] b1 I1 G HU (incl_nil_l _)) as (b & E3 & I2 & _).
  assert (b = a) by (rewrite E2 in E3; injection E3; auto). subst b. eauto.
Qed.

Lemma in_lookup l : NoDup (map fst l) -> forall k v, In (k, v) l <-> lookup k l = Some v.
Proof.
  intros Nd k v. induction l as [|[q x] l IH]; cbn [lookup In map fst] in *; [split; [tauto|discriminate]|].
  inversion Nd as [|? ? N1 N2]; subst. destruct (list_eq_dec Z.eq_dec q k) as [->|N].
  - split; [intros [H|H]; [congruence|]|intros H; left; congruence]. exfalso. apply N1. apply in_map_iff. exists (k, v). auto.
  - rewrite <- (IH N2). split; [intros [H|H]; [congruence|exact H]|auto].
Qed.
Lemma got n l a k v : Inv n l a -> (np_get_data a k = Done (np_data_ok, Some v) <-> In (k, v) l).
Proof.
  intros J. rewrite (get_inv _ _ _ k J), (in_lookup l (inv_keys _ _ _ J)). destruct (lookup k l); split; intros H; try congruence; try discriminate.
Qed.

(** The decision, in terms of the items *)
Lemma hits_routed ids id : routed ids id = true <-> forall c, In c (cells_of id) -> 0 < cell_hits c ids.
Proof. unfold routed. rewrite forallb_forall. split; intros H c Hc; specialize (H c Hc); lia. Qed.
Lemma hits_pos c ids : 0 < cell_hits c ids <-> exists id, In id ids /\ In c (cells_of id).
Proof.
  induction ids as [|x ids IH]; [split; [cbn; lia|intros (? & [] & _)]|]. rewrite cell_hits_cons.
  pose proof (cell_hits_nonneg c ids). pose proof (ccount_nonneg c (cells_of x)). split.
  - intros Hp. destruct (Z.lt_ge_cases 0 (ccount c (cells_of x))) as [A|A].
    + exists x. split; [left; reflexivity|apply ccount_pos; exact A].
    + destruct (proj1 IH) as (id & I1 & I2); [lia|]. exists id. split; [right; exact I1|exact I2].
  - intros (id & [<-|I1] & I2); [apply ccount_pos in I2; lia|]. assert (0 < cell_hits c ids) by (apply IH; eauto). lia.
Qed.

Lemma cells_nonnil id : wf_key id -> cells_of id <> [].
Proof. intros [L _]. destruct id; [discriminate|]. discriminate. Qed.

Lemma routed_cells ids id : routed ids id = true <-> forall c, In c (cells_of id) -> exists x, In x ids /\ In c (cells_of x).
Proof. rewrite hits_routed. split; intros H c Hc; specialize (H c Hc); apply hits_pos; exact H. Qed.

Lemma content_bytes v : value_bytes v = content v.
Proof.
  assert (E : forall z, bytes4 z = [z mod 256; z / 256 mod 256; z / 65536 mod 256; z / 16777216 mod 256]).
  { intros z. unfold bytes4. cbn [map]. rewrite !(Z.land_ones _ 8 : forall a, _) by lia.
    rewrite !Z.shiftr_div_pow2 by lia. change (2 ^ 8) with 256. change (2 ^ (8 * 0)) with 1. change (2 ^ (8 * 1)) with 256.
    change (2 ^ (8 * 2)) with 65536. change (2 ^ (8 * 3)) with 16777216. unfold u32.
    do 3 (f_equal; [Z.to_euclidean_division_equations; lia|]). f_equal. Z.to_euclidean_division_equations; lia. }
  destruct v; cbn [value_bytes content]; auto.
Qed.
Lemma key_id_hash hash k : key_hash hash k = key_id hash k.
Proof. reflexivity. Qed.

Section Hash.
Variable hash : list Z -> key.
Hypothesis hash_wf : forall x, wf_key (hash x).

Definition attr_items (l : store) : list key := flat_map (fun e => [key_id hash (fst e); key_id hash (fst e); hash (content (snd e))]) l.
Lemma attr_items_len l : length (attr_items l) = (3 * length l)%nat.
Proof. induction l as [|e l IH]; [reflexivity|]. unfold attr_items in *. cbn [flat_map app length]. rewrite IH. lia. Qed.
Lemma attr_items_wf l : Forall wf_key (attr_items l).
Proof. induction l as [|e l IH]; [constructor|]. unfold attr_items in *. cbn [flat_map app]. repeat constructor; auto; apply hash_wf. Qed.
Lemma policy_items_wf rs : Forall wf_key (policy_items hash rs).
Proof. induction rs as [|[k [w|]] rs IH]; unfold policy_items in *; cbn [flat_map app fst snd]; repeat constructor; auto; apply hash_wf. Qed.
Lemma policy_items_len rs : Z.of_nat (length (policy_items hash rs)) = policy_size rs.
Proof. induction rs as [|[k [w|]] rs IH]; unfold policy_items, policy_size in *; cbn [flat_map fold_right app length fst snd]; lia. Qed.

Lemma built_perm l l' b : Permutation.Permutation l l' -> Built l b -> Built l' b.
Proof.
  intros P [W L F (ag & N & A)].
  assert (E : forall c, cell_hits c l = cell_hits c l').
  { intros c. clear - P. induction P; rewrite ?cell_hits_cons in *; lia. }
  constructor.
  - rewrite <- P. exact W.
  - rewrite <- (Permutation.Permutation_length P). exact L.
  - rewrite <- (Permutation.Permutation_length P). exact F.
  - exists ag. split; [apply (ns_ext _ _ _ _ _ N); auto|]. intros c V. rewrite <- E. auto.
Qed.

(** adding a list of items *)
Definition adds (b : outcome bloom) (ids : list key) : outcome bloom := fold_left (fun b id => obind b (fun b => nbf_add b id)) ids b.
Lemma adds_abort ids : adds Abort ids = Abort.
Proof. unfold adds. induction ids; [reflexivity|exact IHids]. Qed.
Lemma adds_built new : Forall wf_key new -> forall old b, Built old b ->
  (Z.of_nat (length (old ++ new)) <= 64 -> exists b', adds (Ok b) new = Ok b' /\ Built (old ++ new) b') /\
  (64 < Z.of_nat (length (old ++ new)) -> adds (Ok b) new = Abort).
Proof.
  induction new as [|x new IH]; intros W old b Bu.
  - rewrite app_nil_r. split; [intros _; exists b; auto|]. intros H. pose proof (bu_len _ _ Bu). lia.
  - inversion W as [|? ? W1 W2]; subst. destruct (built_add old b x Bu W1) as [A1 A2].
    assert (E : forall y, adds (Ok b) (x :: new) = y <-> adds (nbf_add b x) new = y) by (intros; reflexivity).
    assert (P : Permutation.Permutation ((x :: old) ++ new) (old ++ x :: new)) by (cbn [app]; apply Permutation.Permutation_middle).
    destruct (Z.lt_ge_cases (Z.of_nat (length old)) 64) as [H|H].
    + destruct (A1 H) as (b1 & E1 & Bu1). destruct (IH W2 _ _ Bu1) as [I1 I2]. rewrite <- (Permutation.Permutation_length P). split; intros HL.
      * destruct (I1 HL) as (b' & E2 & Bu2). exists b'. split; [apply E; rewrite E1; exact E2|]. exact (built_perm _ _ _ P Bu2).
      * apply E. rewrite E1. apply I2. exact HL.
    + split; intros HL; [rewrite app_length in HL; cbn [length] in HL; lia|]. apply E. rewrite A2 by exact H. apply adds_abort.
Qed.

Lemma visit_adds l : forall b, visit (build_attribute hash) l b = (np_data_ok, adds b (attr_items l)).
Proof.
  induction l as [|[k v] l IH]; intros b; [reflexivity|]. cbn [visit]. unfold build_attribute at 1. rewrite IH, content_bytes. f_equal.
  unfold adds, attr_items. cbn [flat_map app fst snd fold_left]. f_equal. unfold policy_set_bin, policy_set_key. destruct b as [b| |]; cbn [obind]; [|reflexivity|reflexivity].
  destruct (nbf_add b _) as [b1| |]; cbn [obind]; reflexivity.
Qed.

Lemma policy_adds rs : forall p, policy_of hash rs (Some p) = obind (adds (Ok p) (policy_items hash rs)) (fun b => Ok (Some b)).
Proof.
  assert (A : forall ids f, obind (adds f ids) (fun b => Ok (Some b)) = match f with Ok b => obind (adds (Ok b) ids) (fun b => Ok (Some b)) | Abort => Abort | UB => UB end).
  { intros ids [b| |]; [reflexivity| |]; unfold adds; induction ids; auto. }
  induction rs as [|[k v] rs IH]; intros p; [reflexivity|]. cbn [policy_of require]. unfold policy_items, adds. cbn [flat_map fst snd].
  rewrite fold_left_app. fold (policy_items hash rs). destruct v as [w|]; cbn [fold_left].
  - unfold policy_set_bin, policy_set_key. rewrite key_id_hash. cbn [obind]. destruct (nbf_add p (key_id hash k)) as [b1| |]; cbn [obind].
    + destruct (nbf_add b1 (hash w)) as [b2| |]; cbn [obind]; [apply IH|symmetry; apply (A _ Abort)|symmetry; apply (A _ UB)].
    + symmetry; apply (A _ Abort).
    + symmetry; apply (A _ UB).
  - unfold policy_set_key. rewrite key_id_hash. cbn [obind]. destruct (nbf_add p (key_id hash k)) as [b1| |]; cbn [obind]; [apply IH| |].
    + symmetry; apply (A _ Abort).
    + symmetry; apply (A _ UB).
Qed.
Lemma policy_none rs : rs <> [] -> policy_of hash rs None = policy_of hash rs (Some nbf_create).
Proof. destruct rs as [|[k v] rs]; [contradiction|reflexivity]. Qed.

(** A policy is not empty. *)
Lemma policy_demands rs p : rs <> [] -> policy_of hash rs None = Ok p -> exists pb c, p = Some pb /\ nbf_cmp nbf_create pb = Ok c /\ c <> 0.
Proof.
  intros Ne. rewrite (policy_none rs Ne), policy_adds. destruct (adds_built (policy_items hash rs) (policy_items_wf rs) [] nbf_create built_new) as [P1 P2].
  cbn [app] in P1, P2. rewrite policy_items_len in P1, P2. destruct (Z_le_gt_dec (policy_size rs) 64) as [PL|PL]; [|rewrite P2 by lia; discriminate].
  destruct (P1 PL) as (pb & Ep & Bp). rewrite Ep. cbn [obind]. intros E. assert (p = Some pb) by (injection E; auto). subst p. clear E.
  destruct (bu_ns _ _ Bp) as (ag & Np & Ap). destruct (bu_ns _ _ built_new) as (ag0 & N0 & A0).
  destruct (ns_cmp _ _ _ _ _ _ N0 Np) as (c & Ec & C1 & C2).
  { intros x V. split; [cbn; lia|apply cell_hits_nonneg]. }
  exists pb, c. split; [reflexivity|]. split; [exact Ec|]. intros C0.
  destruct rs as [|[k v] rs']; [contradiction|]. pose proof (cells_nonnil (key_id hash k) (hash_wf _)) as Nn.
  pose proof (cells_valid (key_id hash k) (hash_wf _)) as Fv. destruct (cells_of (key_id hash k)) as [|x xs] eqn:Ex; [contradiction|].
  assert (V : valid x) by (inversion Fv; assumption).
  assert (Px : 0 < cell_hits x (policy_items hash ((k, v) :: rs'))).
  { apply hits_pos. exists (key_id hash k). split; [|rewrite Ex; left; reflexivity].
    unfold policy_items. cbn [flat_map fst snd]. destruct v; left; reflexivity. }
  pose proof (proj2 (proj1 C1 C0 x V) Px) as Q. cbn in Q. lia.
Qed.

Lemma compliance n l a rs p : Inv n l a -> rs <> [] -> policy_of hash rs None = Ok p ->
  (policy_size rs + 3 * Z.of_nat (length l) <= 64 ->
     check_compliance hash p a = Done (forallb (routed (attr_items l)) (policy_items hash rs))) /\
  (64 < policy_size rs + 3 * Z.of_nat (length l) -> check_compliance hash p a = Aborts).
Proof.
  intros J Ne. rewrite (policy_none rs Ne), policy_adds. destruct (adds_built (policy_items hash rs) (policy_items_wf rs) [] nbf_create built_new) as [P1 P2].
  cbn [app] in P1, P2. rewrite policy_items_len in P1, P2. destruct (Z_le_gt_dec (policy_size rs) 64) as [PL|PL]; [|rewrite P2 by lia; discriminate].
  destruct (P1 PL) as (pb & Ep & Bp). rewrite Ep. cbn [obind]. intros E. assert (p = Some pb) by (injection E; auto). subst p. clear E.
  unfold check_compliance. destruct (bu_ns _ _ Bp) as (ag & Np & Ap). destruct (bu_ns _ _ built_new) as (ag0 & N0 & A0).
  destruct (ns_cmp _ _ _ _ _ _ N0 Np) as (c & Ec & C1 & C2).
  { intros x V. split; [cbn; lia|apply cell_hits_nonneg]. }
  rewrite Ec. cbn [of_outcome rbind].
  assert (Hx : exists x, valid x /\ 0 < cell_hits x (policy_items hash rs)).
  { destruct rs as [|[k v] rs']; [contradiction|]. pose proof (cells_nonnil (key_id hash k) (hash_wf _)) as Nn.
    pose proof (cells_valid (key_id hash k) (hash_wf _)) as Fv. destruct (cells_of (key_id hash k)) as [|x xs] eqn:Ex; [contradiction|].
    exists x. split; [inversion Fv; assumption|]. apply hits_pos. exists (key_id hash k). split; [|rewrite Ex; left; reflexivity].
    unfold policy_items. cbn [flat_map fst snd]. destruct v; left; reflexivity. }
  assert (Cn : c <> 0).
  { intros C0. destruct Hx as (x & V & Px). pose proof (proj2 (proj1 C1 C0 x V) Px) as Q. cbn in Q. lia. }
  clear Hx. replace (c =? 0) with false by lia.
  unfold attribute_build_bloom. rewrite (iterate_inv _ n l a _ J), visit_adds. cbn [rbind snd fst].
  destruct (adds_built (attr_items l) (attr_items_wf l) [] nbf_create built_new) as [Q1 Q2]. cbn [app] in Q1, Q2. rewrite attr_items_len in Q1, Q2.
  destruct (Z_le_gt_dec (3 * Z.of_nat (length l)) 64) as [QL|QL]; [|rewrite Q2 by lia; cbn [of_outcome rbind]; split; [pose proof (policy_items_len rs); lia|reflexivity]].
  destruct Q1 as (ab & Ea & Ba); [lia|]. rewrite Ea. cbn [of_outcome rbind fst snd].
  destruct (built_union _ _ _ _ built_new Bp) as [U1 _]. cbn [app] in U1. destruct U1 as (ub & Eu & Bu); [rewrite policy_items_len; lia|].
  rewrite Eu. cbn [of_outcome rbind]. destruct (built_ignore_age _ _ _ _ Bu Ba) as [I1 I2].
  rewrite app_length, attr_items_len, Nat2Z.inj_add, policy_items_len in I1, I2. split; intros HL; [|rewrite I2 by lia; reflexivity].
  destruct I1 as (ib & Ei & (agi & Ni) & _); [lia|]. rewrite Ei. cbn [of_outcome rbind snd].
  destruct (ns_cmp _ _ _ _ _ _ Np Ni) as (d & Ed & D1 & _).
  { intros x V. pose proof (cell_hits_nonneg x (policy_items hash rs)). pose proof (cell_hits_nonneg x (attr_items l)).
    destruct ((0 <? _) && _); lia. }
  rewrite Ed. cbn [of_outcome rbind]. f_equal. apply eq_true_iff_eq. rewrite Z.eqb_eq, D1, forallb_forall. split.
  - intros H1 id Hid. apply hits_routed. intros x Hx. assert (V : valid x) by (eapply valid_in; [|exact Hx]; pose proof (policy_items_wf rs) as W; rewrite Forall_forall in W; auto).
    specialize (H1 x V). assert (H0 : 0 < cell_hits x (policy_items hash rs)) by (apply hits_pos; eauto).
    apply H1 in H0. destruct (Z.ltb_spec 0 (cell_hits x (policy_items hash rs))), (Z.ltb_spec 0 (cell_hits x (attr_items l))); cbn [andb] in H0; lia.
  - intros H1 x V. pose proof (cell_hits_nonneg x (policy_items hash rs)). pose proof (cell_hits_nonneg x (attr_items l)). split.
    + intros Hp. pose proof Hp as Hp'. apply hits_pos in Hp' as (id & I3 & I4). specialize (H1 id I3). rewrite hits_routed in H1. specialize (H1 x I4).
      replace (0 <? cell_hits x (policy_items hash rs)) with true by lia. replace (0 <? cell_hits x (attr_items l)) with true by lia. cbn [andb]. lia.
    + destruct (Z.ltb_spec 0 (cell_hits x (policy_items hash rs))); cbn [andb]; lia.
Qed.

Lemma count_inv n l a : Inv n l a -> attribute_size a = 3 * Z.of_nat (length l).
Proof. intros J. unfold attribute_size, np_get_object_count. rewrite (inv_header _ _ _ J). reflexivity. Qed.
Lemma carried n l a id : Inv n l a -> (In id (attr_items l) <-> carries hash a id).
Proof.
  intros J. unfold attr_items. rewrite in_flat_map. split.
  - intros ([k v] & H1 & H2). exists k, v. split; [apply (got n l a k v J); exact H1|]. cbn [fst snd In] in H2. intuition.
  - intros (k & v & H1 & H2). exists (k, v). split; [apply (got n l a k v J); exact H1|]. cbn [fst snd In]. intuition.
Qed.
End Hash.

(** Without a policy, or with a policy that demands nothing, every token is admitted. *)
Theorem C16_no_policy : forall hash a p, policy_of hash [] None = Ok p -> check_compliance hash p a = Done true.
Proof. intros hash a p E. cbn in E. injection E as <-. reflexivity. Qed.

(** A token that has all required attributes is admitted, as long as the filters are large enough. *)
Theorem C16_admitted : forall hash rs p a, (forall x, wf_key (hash x)) -> made_block a -> policy_of hash rs None = Ok p ->
  policy_size rs + attribute_size a <= 64 -> Forall (meets a) rs -> check_compliance hash p a = Done true.
Proof.
  intros hash rs p a W M E S F. destruct rs as [|r rs]; [apply (C16_no_policy hash a p E)|].
  destruct (made_inv a M) as (n & l & J). rewrite (count_inv n l a J) in S.
  rewrite (proj1 (compliance hash W n l a (r :: rs) p J ltac:(discriminate) E) S). f_equal. apply forallb_forall. intros id Hid.
  apply routed_in. apply (carried hash n l a id J). unfold policy_items in Hid. apply in_flat_map in Hid as ([k w] & Hr & Hid).
  rewrite Forall_forall in F. destruct (F _ Hr) as (v & G & V). cbn [fst snd] in *. exists k, v. split; [exact G|].
  destruct w as [w|]; cbn [In] in Hid; [destruct Hid as [<-|[<-|[]]]; [auto|right; rewrite V; reflexivity]|destruct Hid as [<-|[]]; auto].
Qed.

(** The exact condition: every cell of the filter that a required item occupies is occupied by an item of the token. *)
Theorem C16_decision : forall hash rs p a, (forall x, wf_key (hash x)) -> made_block a -> policy_of hash rs None = Ok p ->
  policy_size rs + attribute_size a <= 64 ->
  exists answer, check_compliance hash p a = Done answer /\
  (answer = true <-> forall id c, In id (policy_items hash rs) -> In c (cells_of id) -> exists x, carries hash a x /\ In c (cells_of x)).
Proof.
  intros hash rs p a W M E S. destruct rs as [|r rs].
  { exists true. split; [apply (C16_no_policy hash a p E)|]. split; [intros _ id c []|reflexivity]. }
  destruct (made_inv a M) as (n & l & J). rewrite (count_inv n l a J) in S.
  exists (forallb (routed (attr_items hash l)) (policy_items hash (r :: rs))).
  split; [exact (proj1 (compliance hash W n l a (r :: rs) p J ltac:(discriminate) E) S)|]. rewrite forallb_forall. split.
  - intros H id c Hid Hc. specialize (H id Hid). rewrite routed_cells in H. destruct (H c Hc) as (x & X1 & X2). exists x. split; [apply (carried hash n l a x J); exact X1|exact X2].
  - intros H id Hid. apply routed_cells. intros c Hc. destruct (H id c Hid Hc) as (x & X1 & X2). exists x. split; [apply (carried hash n l a x J); exact X1|exact X2].
Qed.

(** FINDING: beyond that size the check fails an assertion.  A peer brings the node down with a token of 22 attributes. *)
Theorem C16_size_refuted : forall hash rs p a, (forall x, wf_key (hash x)) -> made_block a -> rs <> [] -> policy_of hash rs None = Ok p ->
  64 < policy_size rs + attribute_size a -> check_compliance hash p a = Aborts.
Proof.
  intros hash rs p a W M Ne E S. destruct (made_inv a M) as (n & l & J). rewrite (count_inv n l a J) in S.
  exact (proj2 (compliance hash W n l a rs p J Ne E) S).
Qed.

(** The hash function here is only an example. *)
Definition ex_hash (l : list Z) : key := map (fun i => u32 (fold_left (fun h c => h * 31 + c + i) l 7)) [1; 2; 3; 4; 5; 6; 7; 8].
Definition ex_policy : run (option bloom) := of_outcome (policy_of ex_hash [([97], None); ([98], Some [1; 2])] None).

(** A token whose attributes are not a data block is refused by every policy that demands something. *)
Theorem C16_unreadable : forall hash rs p a, (forall x, wf_key (hash x)) -> rs <> [] -> policy_of hash rs None = Ok p ->
  (21 <= length a)%nat -> fst (np_get_object_count a) <> np_data_ok -> check_compliance hash p a = Done false.
Proof.
  intros hash rs p a W Ne E L H. destruct (policy_demands hash W rs p Ne E) as (pb & c & -> & Ec & Cn).
  unfold check_compliance. rewrite Ec. cbn [of_outcome rbind]. replace (c =? 0) with false by lia.
  unfold attribute_build_bloom, np_iterate_data. change overhead with 21%nat. destruct (Nat.ltb_spec (length a) 21); [lia|].
  unfold np_get_object_count in H. destruct (read_header a) as [e h]. destruct e; cbn [fst] in H; try (exfalso; apply H; reflexivity); reflexivity.
Qed.
Example C16_unreadable_ex : fst (np_get_object_count (repeat 0 30)) <> np_data_ok /\ rbind ex_policy (fun p => check_compliance ex_hash p (repeat 0 30)) = Done false.
Proof. split; [intros H; vm_compute in H; discriminate|vm_compute; reflexivity]. Qed.

(** A call demands the attribute in every direction the subject has, and changes nothing else. *)
Theorem C16_both_directions : forall hash inbound outbound k v r i o, set_policy hash inbound outbound k v = Ok (r, i, o) ->
  (inbound = None -> i = None) /\ (outbound = None -> o = None) /\
  (forall p, inbound = Some p -> exists p', i = Some p' /\ policy_of hash [(k, v)] p = Ok p') /\
  (forall p, outbound = Some p -> exists p', o = Some p' /\ policy_of hash [(k, v)] p = Ok p').
Proof.
  intros hash inbound outbound k v r i o. unfold set_policy.
  destruct (require hash inbound k v) as [i'| |] eqn:Ei; cbn [obind]; try discriminate.
  destruct (require hash outbound k v) as [o'| |] eqn:Eo; cbn [obind]; try discriminate.
  intros E. assert (i' = i /\ o' = o) as [-> ->] by (injection E; auto). clear E.
  assert (A : forall d d', require hash d k v = Ok d' -> (d = None -> d' = None) /\ (forall p, d = Some p -> exists p', d' = Some p' /\ policy_of hash [(k, v)] p = Ok p')).
  { intros d d' E. split.
    - intros ->. cbn in E. injection E as <-. reflexivity.
    - intros p ->. cbn [policy_of]. rewrite E. cbn [obind]. unfold require in E.
      destruct (match v with None => _ | Some _ => _ end) as [b| |]; cbn [obind] in E; try discriminate. injection E as <-. eauto. }
  destruct (A _ _ Ei) as [A1 A2]. destruct (A _ _ Eo) as [A3 A4]. auto.
Qed.

(** FINDING: the value may be the value of any other attribute.  A policy that demands [k1] = [v] admits a token with
    [k1] = [w] and [k2] = [v]. *)
Theorem C16_other_key_refuted : forall hash k1 k2 v x y p a, (forall x, wf_key (hash x)) -> made_block a -> policy_of hash [(k1, Some v)] None = Ok p ->
  np_get_data a k1 = Done (np_data_ok, Some x) -> content x <> v -> np_get_data a k2 = Done (np_data_ok, Some y) -> content y = v ->
  attribute_size a <= 62 -> ~ meets a (k1, Some v) /\ check_compliance hash p a = Done true.
Proof.
  intros hash k1 k2 v x y p a W M E G1 Nv G2 Hv S. split.
  { intros (z & G & Z). cbn [fst snd] in *. rewrite G1 in G. injection G as <-. contradiction. }
  destruct (C16_decision hash [(k1, Some v)] p a W M E) as (ans & A1 & A2); [cbn; lia|]. rewrite A1. f_equal. apply A2.
  intros id c Hid Hc. unfold policy_items in Hid. cbn [flat_map fst snd app In] in Hid. destruct Hid as [<-|[<-|[]]].
  - exists (key_id hash k1). split; [exists k1, x; auto|exact Hc].
  - exists (hash v). split; [exists k2, y; split; [exact G2|right; rewrite Hv; reflexivity]|exact Hc].
Qed.

(** FINDING: setting a policy for a subject that is only received reports np_invalid_operation although it is set. *)
Theorem C16_inbound_result_refuted : forall hash k v policy i o r, set_policy hash (Some policy) None k v = Ok (r, i, o) ->
  r = false /\ i <> Some None /\ i <> None.
Proof.
  intros hash k v policy i o r. unfold set_policy, require. cbn [obind].
  destruct (match v with None => _ | Some _ => _ end) as [b| |]; cbn [obind]; [|discriminate|discriminate]. intros E. injection E as <- <- <-. repeat split; discriminate.
Qed.

(** An intent of a peer is considered only if the policy admits it; but in a realm, intents for a subject whose audience
    is not protected never are. *)
Theorem C16_intent : forall hash policy a protected audience me realm, wf_key audience -> wf_key me -> wf_key realm ->
  intent_considered hash policy a protected audience me realm = Done true ->
  check_compliance hash policy a = Done true /\ (me = (if protected then audience else repeat 0 8) \/ realm = (if protected then audience else repeat 0 8)).
Proof.
  intros hash policy a protected audience me realm Wa Wm Wr. unfold intent_considered. destruct (check_compliance hash policy a) as [ok| | |]; cbn [rbind]; try discriminate.
  set (aud := if protected then audience else repeat 0 8).
  assert (W0 : wf_key aud) by (destruct protected; [exact Wa|split; [reflexivity|repeat constructor; lia]]).
  intros E. assert (E2 : ok && (np_dhkey_equal me aud || np_dhkey_equal realm aud) = true) by (injection E; auto).
  apply andb_true_iff in E2 as [-> E2]. split; [reflexivity|]. apply orb_true_iff in E2. rewrite !equal_spec in E2 by assumption. exact E2.
Qed.

(** A policy with two requirements and tokens that meet it, or not. *)
Definition ex_block (ws : list (list Z * datum)) : run (list Z) :=
  rbind (np_init_datablock (repeat 0 80) 80) (fun r => rbind (writes ws (snd r)) (fun r => Done (snd r))).
Definition ex_check (ws : list (list Z * datum)) : run bool := rbind ex_policy (fun p => rbind (ex_block ws) (check_compliance ex_hash p)).
Example C16_ex : ex_check [([97], DInt 5); ([98], DBin [1; 2])] = Done true /\ ex_check [([97], DInt 5); ([98], DBin [1; 3])] = Done false /\
  ex_check [([98], DBin [1; 2])] = Done false /\ ex_check [] = Done false /\ ex_check [([98], DInt 5); ([97], DStr [1; 2])] = Done true.
Proof. vm_compute. auto. Qed.

Print Assumptions C16_no_policy.
Print Assumptions C16_admitted.
Print Assumptions C16_decision.
Print Assumptions C16_size_refuted.
Print Assumptions C16_unreadable.
Print Assumptions C16_both_directions.
Print Assumptions C16_other_key_refuted.
Print Assumptions C16_inbound_result_refuted.
Print Assumptions C16_intent.
