(** The filter of one entry: the cells of one subject, all with the same age and count. *)
From Verif Require Import Base Dhkey_Model Bloom_Model Bloom_Spec Bloom_Std Bloom_Decay Bloom_Count Bloom_Nbf Pheromone_Model Pheromone_Spec.
From Coq Require Import Permutation.

Definition has (s : key) (c : Z * Z) : bool := existsb (cell_eqb c) (cells_of s).
Definition mark (s : key) (v : Z) (c : Z * Z) : Z := if has s c then v else 0.
Lemma has_in s c : has s c = true <-> In c (cells_of s).
Proof. unfold has. rewrite existsb_exists. split; [intros (x & H & E); apply cell_eqb_eq in E; subst; auto|intros H; exists c; split; auto; apply cell_eqb_eq; auto]. Qed.
Record Ent (s : key) (a u : Z) (b : bloom) : Prop := {
  en_ns : NS (mark s a) (mark s u) b; en_free : free_items b = 64 - u; en_a : 0 <= a <= 255; en_u : 0 <= u <= 64 }.
Lemma same_refl s : same_cells s s. Proof. intros c. tauto. Qed.
Lemma same_sym s t : same_cells s t -> same_cells t s. Proof. intros H c. symmetry. apply H. Qed.
Lemma same_trans s t v : same_cells s t -> same_cells t v -> same_cells s v. Proof. intros H H' c. rewrite (H c). apply H'. Qed.
Lemma same_has s t c : same_cells s t -> has s c = has t c.
Proof. intros H. apply eq_true_iff_eq. rewrite !has_in. apply H. Qed.
Definition same_b (s t : key) : bool := forallb (has t) (cells_of s) && forallb (has s) (cells_of t).
Lemma same_b_iff s t : same_b s t = true <-> same_cells s t.
Proof.
  unfold same_b. rewrite andb_true_iff, !forallb_forall. split.
  - intros [A B] c. split; intros H; [apply has_in, A|apply has_in, B]; auto.
  - intros H. split; intros c Hc; apply has_in, H; auto.
Qed.
Lemma same_b_refl s : same_b s s = true. Proof. apply same_b_iff, same_refl. Qed.
Lemma cells_len s : wf_key s -> length (cells_of s) = 8%nat.
Proof. intros [H _]. destruct s as [|w0 [|w1 [|w2 [|w3 [|w4 [|w5 [|w6 [|w7 [|]]]]]]]]]; try discriminate. reflexivity. Qed.
(** for subjects that take eight cells, inclusion is equality *)
Lemma sub_same s t : wf_key s -> wf_key t -> regular s -> regular t -> forallb (has t) (cells_of s) = same_b s t.
Proof.
  intros Ws Wt Rs Rt. unfold same_b. destruct (forallb (has t) (cells_of s)) eqn:E; [|reflexivity]. cbn [andb]. symmetry. rewrite forallb_forall in *. intros c Hc. apply has_in.
  assert (I : incl (cells_of s) (cells_of t)) by (intros x Hx; apply has_in, E; auto).
  assert (I' : incl (cells_of t) (cells_of s)) by (apply NoDup_length_incl; auto; rewrite !cells_len; auto). apply I'. auto.
Qed.
Lemma valid_in s c : wf_key s -> In c (cells_of s) -> valid c.
Proof. intros W H. pose proof (cells_valid s W) as F. rewrite Forall_forall in F. auto. Qed.

Lemma shape_ok ag ct b ag' ct' b' : NS ag ct b -> NS ag' ct' b' -> nbf_shape b b' = true.
Proof.
  intros [S1 D1 N1 L1 _ _] [S2 D2 N2 L2 _ _]. unfold nbf_shape, same_shape. rewrite S1, S2, D1, D2, N1, N2. reflexivity.
Qed.

Lemma regular_count s c : regular s -> ccount c (cells_of s) = if has s c then 1 else 0.
Proof.
  unfold regular, has. induction (cells_of s) as [|x l IH]; [reflexivity|]. intros N. inversion N as [|? ? H N']; subst. rewrite ccount_cons, (IH N'). cbn [existsb].
  destruct (cell_eqb c x) eqn:E; cbn [orb]; [|lia]. apply cell_eqb_eq in E. subst. replace (existsb (cell_eqb x) l) with false; [lia|].
  symmetry. apply not_true_is_false. rewrite existsb_exists. intros (y & Hy & E). apply cell_eqb_eq in E. subst. auto.
Qed.
Lemma ent_new s : wf_key s -> regular s -> exists b, nbf_add nbf_create s = Ok b /\ Ent s 128 1 b.
Proof.
  intros W R. destruct (ns_add _ _ nbf_create s ns_new W) as (b & E & F & N); [cbn; lia|]. exists b. split; auto. constructor; [|rewrite F; reflexivity|lia|lia].
  apply (ns_ext _ _ _ _ _ N); intros c _; unfold upd, mark; rewrite regular_count by auto; destruct (has s c); reflexivity.
Qed.
Definition faded (a : Z) : Z := if 8 <? a then a - 8 else 0.
Lemma ent_age_dec s a u b : Ent s a u b -> exists b', nbf_age_dec b = Ok b' /\ Ent s (faded a) u b'.
Proof.
  intros [N F A U]. unfold nbf_age_dec. rewrite (ns_d _ _ _ N). change (Z.shiftr 16 1) with 8.
  destruct (ns_loop _ _ b (fun k => if 8 <? age b k then age b k - 8 else 0) (cnt b) N) as (b' & E & F' & N'). exists b'. split; auto. constructor; [|rewrite F'; auto|unfold faded; destruct (Z.ltb_spec 8 a); lia|auto].
  apply (ns_ext _ _ _ _ _ N'); intros c V.
  - rewrite (age_ns _ _ _ _ N V). unfold mark, faded. destruct (has s c); reflexivity.
  - apply (cnt_ns _ _ _ _ N V).
Qed.
Lemma ent_count_dec s a u b : Ent s a u b -> 1 <= u -> exists b', nbf_count_dec b = Ok b' /\ Ent s a (u - 1) b'.
Proof.
  intros [N F A U] H. unfold nbf_count_dec. replace (free_items b <? 64) with true by lia.
  destruct (ns_loop _ _ b (age b) (fun k => if 0 <? cnt b k then cnt b k - 1 else cnt b k) N) as (b' & E & F' & N'). rewrite E. cbn [obind]. eexists. split; [reflexivity|].
  constructor; [|cbn [free_items set_free]; rewrite u16_id; lia|auto|lia].
  assert (N2 : NS (mark s a) (mark s (u - 1)) b').
  { apply (ns_ext _ _ _ _ _ N'); intros c V; [apply (age_ns _ _ _ _ N V)|]. rewrite (cnt_ns _ _ _ _ N V). unfold mark. destruct (has s c); [|reflexivity]. replace (0 <? u) with true by lia. reflexivity. }
  destruct N2. constructor; auto.
Qed.
Lemma ent_union s a u b s' a' u' b' : Ent s a u b -> Ent s' a' u' b' -> same_cells s s' -> u + u' <= 64 ->
  exists b2, nbf_union b b' = Ok b2 /\ Ent s (Z.min 255 (a + a')) (u + u') b2.
Proof.
  intros [N F A U] [N' F' A' U'] S H. unfold nbf_union. rewrite (shape_ok _ _ _ _ _ _ N N'). cbn [negb orb]. replace (64 <? 64 - free_items b + (64 - free_items b')) with false by lia.
  destruct (ns_loop _ _ b (fun k => if 255 <=? age b k + age b' k then 255 else age b k + age b' k) (fun k => u8 (cnt b k + cnt b' k)) N) as (b2 & E & F2 & N2). rewrite E. cbn [obind]. eexists. split; [reflexivity|].
  constructor; [|cbn [free_items set_free]; rewrite u16_id; lia|lia|lia].
  assert (N3 : NS (mark s (Z.min 255 (a + a'))) (mark s (u + u')) b2).
  { apply (ns_ext _ _ _ _ _ N2); intros c V.
    - rewrite (age_ns _ _ _ _ N V), (age_ns _ _ _ _ N' V). unfold mark. rewrite <- (same_has s s' c S). destruct (has s c); [|reflexivity]. destruct (Z.leb_spec 255 (a + a')); lia.
    - rewrite (cnt_ns _ _ _ _ N V), (cnt_ns _ _ _ _ N' V). unfold mark. rewrite <- (same_has s s' c S). destruct (has s c); [apply u8_id; lia|reflexivity]. }
  destruct N3. constructor; auto.
Qed.
Lemma ent_same s a u b t : Ent s a u b -> same_cells s t -> Ent t a u b.
Proof. intros [N F A U] S. constructor; auto. apply (ns_ext _ _ _ _ _ N); intros c _; unfold mark; rewrite (same_has s t c S); reflexivity. Qed.
Lemma forallb_false_ex {A} (f : A -> bool) l : forallb f l = false -> exists c, In c l /\ f c = false.
Proof.
  induction l as [|x l IH]; intros S; [discriminate|]. cbn [forallb] in S. apply andb_false_iff in S. destruct S as [S|S]; [exists x; split; [left; auto|auto]|]. destruct (IH S) as (c & Hc & E). exists c. split; [right; auto|auto].
Qed.
Lemma ent_test s a u b s' a' u' b' : wf_key s -> wf_key s' -> Ent s a u b -> Ent s' a' u' b' -> 0 < a -> 0 < a' -> u' <= u -> nbf_intersect_test b b' = Ok (same_b s s').
Proof.
  intros W W' [N F A U] [N' F' A' U'] H H' L. unfold nbf_intersect_test. rewrite (shape_ok _ _ _ _ _ _ N N'). cbn [negb].
  destruct (same_b s s') eqn:S.
  - apply same_b_iff in S. replace (existsb (differs b b') (cells b)) with false.
    2:{ symmetry. apply not_true_is_false. rewrite existsb_exists. intros (k & Hk & D). apply (cells_in _ _ _ _ N) in Hk. destruct Hk as (c & V & ->). unfold differs in D.
        rewrite (age_ns _ _ _ _ N V), (age_ns _ _ _ _ N' V) in D. unfold mark in D. rewrite <- (same_has s s' c S) in D. destruct (has s c); lia. }
    f_equal. match goal with |- (fold_left ?f ?l 0 =? fold_left ?g ?l 0) = true => assert (E : forall l', incl l' (cells b) -> forall x, fold_left f l' x = fold_left g l' x) end.
    { induction l' as [|k l' IH]; intros I x; [reflexivity|]. cbn [fold_left]. rewrite IH by (intros y Hy; apply I; right; auto). f_equal.
      assert (Hk : In k (cells b)) by (apply I; left; auto). apply (cells_in _ _ _ _ N) in Hk. destruct Hk as (c & V & ->). rewrite (cnt_ns _ _ _ _ N V), (cnt_ns _ _ _ _ N' V).
      unfold mark. rewrite <- (same_has s s' c S). destruct (has s c); [replace (u' <=? u) with true by lia|]; reflexivity. }
    rewrite E by (intros y Hy; apply filter_In in Hy; apply Hy). apply Z.eqb_refl.
  - replace (existsb (differs b b') (cells b)) with true; [reflexivity|]. symmetry. rewrite existsb_exists.
    assert (D : exists c, valid c /\ has s c <> has s' c).
    { unfold same_b in S. apply andb_false_iff in S. destruct S as [S|S].
      all: apply forallb_false_ex in S; rename S into X.
      all: destruct X as (c & Hc & E); exists c; split; [eapply valid_in; [|eassumption]; assumption|]; apply has_in in Hc; cbv beta in E; try rewrite Hc; try rewrite E; discriminate. }
    destruct D as (c & V & D). exists (addr_of c). split; [apply (cells_in _ _ _ _ N); exists c; auto|]. unfold differs. rewrite (age_ns _ _ _ _ N V), (age_ns _ _ _ _ N' V). unfold mark. destruct (has s c), (has s' c); try congruence; lia.
Qed.
Lemma forallb_ext' {A} (f g : A -> bool) l : (forall x, In x l -> f x = g x) -> forallb f l = forallb g l.
Proof. induction l as [|x l IH]; intros H; [reflexivity|]. cbn. rewrite H by (left; auto). rewrite IH; auto. intros y Hy. apply H. right. auto. Qed.
Lemma ent_check s a u b k : wf_key s -> wf_key k -> regular s -> regular k -> Ent s a u b -> 0 < a -> 0 < u -> nbf_check b k = Ok (same_b k s).
Proof.
  intros W W' R R' [N F A U] Ha Hu. rewrite (ns_check _ _ _ _ N W'). f_equal. rewrite <- sub_same by auto. apply forallb_ext'. intros c Hc. unfold mark. destruct (has s c); lia.
Qed.
(** the number of marked cells is eight *)
Lemma cells_nodup ag ct b : NS ag ct b -> NoDup (cells b).
Proof.
  intros N. unfold cells. rewrite bytes_ok by apply N. change (2040 / 2) with 1020.
  assert (Z : forall n, NoDup (zrange n)) by (intros n; unfold zrange; apply FinFun.Injective_map_NoDup; [intros x y E; lia|apply seq_NoDup]).
  apply FinFun.Injective_map_NoDup; auto. intros x y E. lia.
Qed.
Lemma marked_len s a u b r ag ct : wf_key s -> regular s -> Ent s a u b -> NS ag ct r -> 0 < a -> length (filter (fun k => 0 <? age b k) (cells r)) = 8%nat.
Proof.
  intros W R [N F A U] Nr Ha. rewrite <- (cells_len s W), <- (map_length addr_of). apply Permutation_length. apply NoDup_Permutation.
  - apply NoDup_filter, (cells_nodup _ _ _ Nr).
  - assert (I : forall l : list (Z * Z), Forall valid l -> NoDup l -> NoDup (map addr_of l)).
    { induction 1 as [|x l V Vl IH]; intros D; cbn [map]; [constructor|]. inversion D; subst. constructor; auto. rewrite in_map_iff. intros (y & E & Hy). rewrite Forall_forall in Vl. apply addr_inj in E; auto. subst. auto. }
    apply I; [apply cells_valid; auto|exact R].
  - intros k. rewrite filter_In, in_map_iff, (cells_in _ _ _ _ Nr). split.
    + intros ((c & V & ->) & H). rewrite (age_ns _ _ _ _ N V) in H. exists c. split; auto. apply has_in. unfold mark in H. destruct (has s c); [auto|lia].
    + intros (c & <- & Hc). pose proof (valid_in s c W Hc) as V. split; [exists c; auto|]. rewrite (age_ns _ _ _ _ N V). unfold mark. apply has_in in Hc. rewrite Hc. lia.
Qed.
Lemma fold_u8 (l : list Z) f u : (forall k, In k l -> f k = u) -> forall x, fold_left (fun c k => u8 (c + f k)) l (u8 x) = u8 (x + Z.of_nat (length l) * u).
Proof.
  induction l as [|k l IH]; intros H x; cbn [fold_left length].
  - f_equal. lia.
  - rewrite H by (left; auto). replace (u8 (u8 x + u)) with (u8 (x + u)) by (unfold u8; rewrite Z.add_mod_idemp_l by lia; reflexivity).
    rewrite IH by (intros y Hy; apply H; right; auto). f_equal. lia.
Qed.
(** the strength the decay looks at: 0 exactly if the ages are used up, or the count is a multiple of 32 *)
Lemma ent_intersect_age t agt ctt s a u b : wf_key s -> regular s -> NS agt ctt t -> Ent s a u b -> (forall c, In c (cells_of s) -> a <= agt c) ->
  exists r, nbf_intersect_age t b = Ok r /\ (r = 0 <-> a = 0 \/ u mod 32 = 0).
Proof.
  intros W R Nt En Hage. pose proof En as [N F A U]. unfold nbf_intersect_age. rewrite (shape_ok _ _ _ _ _ _ Nt N). cbn [negb].
  destruct (Z.eqb_spec a 0) as [Za|Za].
  - eexists. split; [reflexivity|]. replace (filter (fun k => 0 <? age b k) (cells t)) with (@nil Z). { cbn. tauto. }
    symmetry. destruct (filter (fun k => 0 <? age b k) (cells t)) as [|k l] eqn:E; [reflexivity|exfalso]. assert (Hk : In k (filter (fun k => 0 <? age b k) (cells t))) by (rewrite E; left; auto).
    apply filter_In in Hk. destruct Hk as [Hk G]. apply (cells_in _ _ _ _ Nt) in Hk. destruct Hk as (c & V & ->). rewrite (age_ns _ _ _ _ N V) in G. unfold mark in G. destruct (has s c); lia.
  - assert (L := marked_len s a u b t _ _ W R En Nt ltac:(lia)). set (ks := filter (fun k => 0 <? age b k) (cells t)) in *.
    assert (K : forall k, In k ks -> exists c, In c (cells_of s) /\ valid c /\ k = addr_of c).
    { intros k Hk. apply filter_In in Hk. destruct Hk as [Hk G]. apply (cells_in _ _ _ _ Nt) in Hk. destruct Hk as (c & V & ->). rewrite (age_ns _ _ _ _ N V) in G. exists c. split; auto. apply has_in. unfold mark in G. destruct (has s c); [auto|lia]. }
    eexists. split; [reflexivity|].
    assert (I : fold_left (fun c k => u8 (c + cnt b k)) ks 0 = u8 (8 * u)).
    { change 0 with (u8 0) at 1. rewrite (fold_u8 ks (cnt b) u). { rewrite L. reflexivity. }
      intros k Hk. destruct (K k Hk) as (c & Hc & V & ->). rewrite (cnt_ns _ _ _ _ N V). unfold mark. apply has_in in Hc. rewrite Hc. reflexivity. }
    rewrite I. assert (P : 0 < fold_left (fun c k => if 0 <? age t k then if c <? age t k then c else age t k else 0) ks 256).
    { assert (P : forall l x, incl l ks -> 0 < x -> 0 < fold_left (fun c k => if 0 <? age t k then if c <? age t k then c else age t k else 0) l x).
      { induction l as [|k l IH]; intros x Hl Hx; cbn [fold_left]; [auto|]. apply IH; [intros y Hy; apply Hl; right; auto|].
        destruct (K k (Hl k (or_introl eq_refl))) as (c & Hc & V & ->). rewrite (age_ns _ _ _ _ Nt V). specialize (Hage c Hc). replace (0 <? agt c) with true by lia. destruct (x <? agt c); lia. }
      apply P; [apply incl_refl|lia]. }
    unfold u8. assert (M : (8 * u) mod 256 = 8 * (u mod 32)) by (change 256 with (8 * 32); rewrite Z.mul_mod_distr_l by lia; reflexivity).
    rewrite M. destruct (Z.eqb_spec (8 * (u mod 32)) 0); lia.
Qed.
(** the union of all entries *)
Definition look (b : bloom) (c : Z * Z) : Z := age b (addr_of c).
Definition lookc (b : bloom) (c : Z * Z) : Z := cnt b (addr_of c).
Record Top (b : bloom) : Prop := { tp_ns : NS (look b) (lookc b) b; tp_a : forall c, valid c -> 0 <= look b c <= 255; tp_c : forall c, valid c -> 0 <= lookc b c <= 255 }.
Lemma ns_look ag ct b : NS ag ct b -> NS (look b) (lookc b) b.
Proof. intros N. apply (ns_ext _ _ _ _ _ N); intros c V; unfold look, lookc; [rewrite (age_ns _ _ _ _ N V)|rewrite (cnt_ns _ _ _ _ N V)]; auto. Qed.
Lemma top_new : Top nbf_create.
Proof. constructor; [apply (ns_look _ _ _ ns_new)| |]; intros c V; [unfold look; rewrite (age_ns _ _ _ _ ns_new V)|unfold lookc; rewrite (cnt_ns _ _ _ _ ns_new V)]; lia. Qed.
Lemma top_union t s a u b : Top t -> Ent s a u b -> free_items t = 64 ->
  exists t', nbf_union t b = Ok t' /\ Top (set_free t' 64) /\ Top t' /\ free_items t' = 64 - u /\ (forall c, valid c -> look t' c = Z.min 255 (look t c + mark s a c) /\ lookc t' c = u8 (lookc t c + mark s u c)).
Proof.
  intros [Nt Ta Tc] [N F A U] Ft. unfold nbf_union. rewrite (shape_ok _ _ _ _ _ _ Nt N). cbn [negb orb]. rewrite Ft, F. replace (64 <? 64 - 64 + (64 - (64 - u))) with false by lia.
  destruct (ns_loop _ _ t (fun k => if 255 <=? age t k + age b k then 255 else age t k + age b k) (fun k => u8 (cnt t k + cnt b k)) Nt) as (b2 & E & F2 & N2). rewrite E. cbn [obind]. eexists. split; [reflexivity|].
  assert (Q : forall c, valid c -> look b2 c = Z.min 255 (look t c + mark s a c) /\ lookc b2 c = u8 (lookc t c + mark s u c)).
  { intros c V. unfold look at 1. unfold lookc at 1. rewrite (age_ns _ _ _ _ N2 V), (cnt_ns _ _ _ _ N2 V). fold (look t c). fold (lookc t c). rewrite (age_ns _ _ _ _ N V), (cnt_ns _ _ _ _ N V).
    split; [destruct (Z.leb_spec 255 (look t c + mark s a c)); lia|reflexivity]. }
  assert (T : forall v, Top (set_free b2 v)).
  { intros v. assert (N3 : NS (look b2) (lookc b2) b2) by (apply (ns_look _ _ _ N2)). constructor.
    - destruct N3. constructor; auto.
    - intros c V. destruct (Q c V) as [Q1 Q2]. change (look (set_free b2 v) c) with (look b2 c). specialize (Ta c V). unfold mark in Q1. destruct (has s c); lia.
    - intros c V. destruct (Q c V) as [Q1 Q2]. change (lookc (set_free b2 v) c) with (lookc b2 c). rewrite Q2. unfold u8. pose proof (Z.mod_pos_bound (lookc t c + mark s u c) 256 ltac:(lia)). lia. }
  split; [apply (T 64)|]. split; [apply T|]. split; [cbn [free_items set_free]; rewrite u16_id; lia|]. exact Q.
Qed.
Lemma top_age_dec t : Top t -> exists t', nbf_age_dec t = Ok t' /\ Top t' /\ (forall c, valid c -> look t' c = faded (look t c) /\ lookc t' c = lookc t c).
Proof.
  intros [N A C]. unfold nbf_age_dec. rewrite (ns_d _ _ _ N). change (Z.shiftr 16 1) with 8.
  destruct (ns_loop _ _ t (fun k => if 8 <? age t k then age t k - 8 else 0) (cnt t) N) as (b' & E & F' & N'). exists b'. split; auto.
  assert (Q : forall c, valid c -> look b' c = faded (look t c) /\ lookc b' c = lookc t c).
  { intros c V. unfold look at 1. unfold lookc at 1. rewrite (age_ns _ _ _ _ N' V), (cnt_ns _ _ _ _ N' V). split; reflexivity. }
  split; [|exact Q]. constructor; [apply (ns_look _ _ _ N')| |]; intros c V; destruct (Q c V) as [Q1 Q2]; specialize (A c V); specialize (C c V); [rewrite Q1; unfold faded; destruct (Z.ltb_spec 8 (look t c)); lia|lia].
Qed.
Lemma faded_mono a b : a <= b -> 0 <= b -> faded a <= faded b.
Proof. unfold faded. destruct (Z.ltb_spec 8 a), (Z.ltb_spec 8 b); lia. Qed.
Lemma faded_range a : 0 <= a <= 255 -> 0 <= faded a <= 255. Proof. unfold faded. destruct (Z.ltb_spec 8 a); lia. Qed.
(** what is found in the union *)
Lemma top_check t k : Top t -> wf_key k -> nbf_check t k = Ok (forallb (fun c => negb ((look t c =? 0) || (lookc t c =? 0))) (cells_of k)).
Proof. intros T W. apply ns_check; [apply T|auto]. Qed.
Lemma heur_ok t l a : Top t -> Forall valid l -> (forall c, In c l -> a <= look t c /\ 0 < lookc t c) -> forall x, a <= x -> 0 <= x -> exists p, heuristic (bits t) (map addr_of l) x = Ok p /\ a <= p /\ p <= x.
Proof.
  intros [N Ta Tc]. induction 1 as [|c l V _ IH]; intros H x Hx; cbn [map heuristic]; [exists x; repeat split; auto; lia|]. destruct (addr_range c V) as [R _].
  rewrite !rd_ok by (rewrite (ns_len _ _ _ N); lia). cbn [obind]. rewrite (ns_ag _ _ _ N c V), (ns_ct _ _ _ N c V). destruct (H c (or_introl eq_refl)) as [H1 H2]. replace (lookc t c =? 0) with false by lia.
  specialize (Ta c V). intros. destruct (IH (fun y Hy => H y (or_intror Hy)) (if x <? look t c then x else look t c)) as (p & E & P1 & P2); [destruct (x <? look t c); lia|destruct (x <? look t c); lia|].
  exists p. split; auto. split; auto. destruct (Z.ltb_spec x (look t c)); lia.
Qed.
Lemma top_found t k a : Top t -> wf_key k -> 0 < a -> a <= 255 -> (forall c, In c (cells_of k) -> a <= look t c /\ 0 < lookc t c) ->
  nbf_check t k = Ok true /\ exists p, nbf_heuristic t k = Ok p /\ a <= p.
Proof.
  intros T W Ha Hm H. split.
  - rewrite top_check by auto. f_equal. apply forallb_forall. intros c Hc. destruct (H c Hc). lia.
  - unfold nbf_heuristic. rewrite addrs_cells by apply T. destruct (heur_ok t (cells_of k) a T (cells_valid k W) H 256) as (p & E & P & _); [lia|lia|]. exists p. auto.
Qed.
