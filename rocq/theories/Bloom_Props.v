(** C20, C21, C22: bloom filters; C42: rate limit per peer; C43: duplicate messages. *)
From Verif Require Import Base Dhkey_Model Bloom_Model Bloom_Spec Bloom_Std Bloom_Decay Bloom_Count Bloom_Nbf.

Definition mk (z : Z) : key := [z; z + 1; z + 2; z + 3; z + 4; z + 5; z + 6; z + 7].
Lemma mk_wf z : 0 <= z < 4294967288 -> wf_key (mk z).
Proof. intros H. split; [reflexivity|]. repeat constructor; unfold is_word; lia. Qed.

(** ** C20 *)
Lemma covered_in n ids id : In id ids -> covered n ids id = true.
Proof. intros H. unfold covered. apply forallb_forall. intros w Hw. unfold hit. apply existsb_exists. exists id. split; auto. apply existsb_exists. exists w. split; auto. apply Z.eqb_refl. Qed.
(** A standard filter built by adding and uniting answers exactly as a bloom filter over the items put in should; it
    holds as many items as it promises, and stops the process with one more. *)
Theorem C20_standard : forall n e, 0 < n <= 524280 -> n mod 8 = 0 ->
  (Z.of_nat (length (items e)) <= n / 16 -> exists b, standard n e = Ok b /\
     (forall id, standard_check b id = Ok (covered n (items e) id)) /\
     (forall id, In id (items e) -> standard_check b id = Ok true) /\ free_items b = n / 16 - Z.of_nat (length (items e))) /\
  (n / 16 < Z.of_nat (length (items e)) -> standard n e = Abort).
Proof.
  intros n e Hn H8. destruct (standard_build n Hn H8 e) as [P N]. split; [|exact N]. intros L. destruct (P L) as (b & E & St). exists b. split; auto.
  assert (C : forall id, standard_check b id = Ok (covered n (items e) id)) by (intros id; apply std_check; auto). split; auto. split; [|apply St]. intros id H. rewrite C, covered_in; auto.
Qed.
Example C20_standard_ex : obind (standard 256 (FUnion (FAdd (FAdd FNew (mk 5)) (mk 1000)) (FAdd FNew (mk 77)))) (fun b =>
  Ok (standard_check b (mk 77), standard_check b (mk 1000), standard_check b (mk 200))) = Ok (Ok true, Ok true, Ok false).
Proof. vm_compute. reflexivity. Qed.
(** Intersection keeps what is in both, and reports an empty intersection correctly. *)
Theorem C20_standard_intersect : forall n e1 e2 b1 b2, 0 < n <= 524280 -> n mod 8 = 0 -> standard n e1 = Ok b1 -> standard n e2 = Ok b2 ->
  exists c b, standard_intersect b1 b2 = Ok (c, b) /\
    (forall id, standard_check b id = Ok (covered n (items e1) id && covered n (items e2) id)) /\
    (forall id, id <> [] -> In id (items e1) -> In id (items e2) -> c = true /\ standard_check b id = Ok true).
Proof.
  intros n e1 e2 b1 b2 Hn H8 E1 E2.
  assert (Inv : forall e b, standard n e = Ok b -> StdInv n (items e) b). { intros e b E. destruct (standard_build n Hn H8 e) as [P N]. destruct (Z.le_gt_cases (Z.of_nat (length (items e))) (n / 16)) as [L|L].
    - destruct (P L) as (b' & E' & St). congruence.
    - rewrite N in E by lia. discriminate. }
  destruct (std_intersect n Hn H8 _ _ b1 b2 (Inv _ _ E1) (Inv _ _ E2)) as (c & b & E & C & D). exists c, b. split; auto. split; auto. intros id Hne H1 H2.
  rewrite C, !covered_in by auto. split; auto. destruct c; auto. specialize (D eq_refl id Hne). rewrite !covered_in in D by auto. discriminate.
Qed.
Example C20_intersect_ex : obind (standard 256 (FAdd (FAdd FNew (mk 5)) (mk 1000))) (fun b1 => obind (standard 256 (FAdd (FAdd FNew (mk 5)) (mk 77))) (fun b2 =>
  obind (standard_intersect b1 b2) (fun '(c, b) => Ok (c, standard_check b (mk 5), standard_check b (mk 77))))) = Ok (true, Ok true, Ok false).
Proof. vm_compute. reflexivity. Qed.
(** A scalable filter that stays within 255 blocks (and a 16 bit offset) never forgets: it answers like a sequence of
    standard filters over consecutive parts of the items. *)
Theorem C20_scalable : forall n B ids, 16 <= n < 1048576 -> n mod 8 = 0 -> 1 <= B <= 255 -> n / 8 * (B - 1) <= 65535 ->
  Z.of_nat (length ids) <= n / 16 * B -> exists b bl, add_all scalable_add (scalable_create n) ids = Ok b /\ concat bl = ids /\
    (forall id, scalable_check b id = Ok (existsb (fun part => covered n part id) bl)) /\
    (forall id, In id ids -> scalable_check b id = Ok true).
Proof.
  intros n B ids Hn H8 HB Hoff L. destruct (scalable_all n B Hn H8 HB Hoff ids [[]] (scalable_create n)) as (bl & b & E & Sc & C & F); [apply sc_new; auto|exact L|]. cbn [concat app] in C.
  exists b, bl. split; auto. split; auto.
  assert (Q : forall id, scalable_check b id = Ok (existsb (fun part => covered n part id) bl)).
  { intros id. apply (sc_check n B); auto. apply (blocks_bound n B) with (b := b); auto; [rewrite C; auto|]. destruct F as [->|F]; auto. }
  split; auto. intros id Hid. rewrite Q. f_equal. apply existsb_exists. rewrite <- C in Hid. apply in_concat in Hid as (part & H1 & H2). exists part. split; auto. apply covered_in; auto.
Qed.
Example C20_scalable_ex : obind (add_all scalable_add (scalable_create 64) (map (fun k => mk (Z.of_nat k * 9)) (seq 0 9))) (fun b =>
  Ok (num_blocks b, scalable_check b (mk 9), scalable_check b (mk 60))) = Ok (3, Ok true, Ok false).
Proof. vm_compute. reflexivity. Qed.
(** Beyond that the statement is false: with the 256th block the block counter wraps and memory outside the filter is
    written (here for the smallest filter, after 256 items). *)
Theorem C20_scalable_overflow_refuted : exists ids, length ids = 256%nat /\ Forall wf_key ids /\ add_all scalable_add (scalable_create 16) ids = UB.
Proof. exists (repeat (mk 3) 256). split; [reflexivity|]. split; [|vm_compute; reflexivity]. apply Forall_forall. intros x H. apply repeat_spec in H. subst. apply mk_wf. lia. Qed.
(** A size that is not a multiple of 8 is accepted and writes behind the filter. *)
Theorem C20_odd_size_refuted : exists id, wf_key id /\ standard_add (standard_create 31) id = UB.
Proof. exists (mk 24). split; [apply mk_wf; lia|]. reflexivity. Qed.

(** Decaying filter: after every history of adds, decays and resizings that does not stop the process, the filter
    remembers exactly the items whose positions have not been shifted out since they were last touched. *)
Theorem C20_decaying : forall width n pp l, width = 8 \/ width = 16 -> 0 < n <= 65535 -> 1 <= pp -> Forall (dop_ok width) l ->
  dapply_all (decaying_create n width pp) l = Abort \/
  exists b, dapply_all (decaying_create n width pp) l = Ok b /\
    forall id, decaying_check b id = Ok (remembered width (fold_left dstep l (mkDecay n pp (fun _ => None))) id).
Proof.
  intros width n pp l W Hn Hp F. destruct (dec_history width W l (mkDecay n pp (fun _ => None)) (decaying_create n width pp)) as [A|(b & E & Inv & V)]; auto.
  - split; cbn; lia.
  - apply dec_create; auto; lia.
  - right. exists b. split; auto. intros id. apply dec_check; auto. apply V.
Qed.
Example C20_decaying_ex : obind (dapply_all (decaying_create 64 8 2) [DAdd (mk 3); DDecay; DDecay; DDecay]) (fun b =>
  obind (dapply b DDecay) (fun b' => Ok (decaying_check b (mk 3), decaying_check b' (mk 3)))) = Ok (Ok true, Ok false).
Proof. vm_compute. reflexivity. Qed.
(** Stable filter: whatever was forgotten meanwhile, an item is found right after it was added, or checked. *)
Theorem C20_stable : forall j pp rnds id b0 b, 1 <= j <= 28 -> stable_create (2 ^ j) 8 pp rnds = Ok b0 -> wf_key id ->
  (exists ids, add_all stable_add b0 ids = Ok b) ->
  (exists b1, stable_add b id = Ok b1 /\ exists b2, stable_check b1 id = Ok (true, b2)) /\
  (exists r b1, stable_check b id = Ok (r, b1) /\ exists b2, stable_check b1 id = Ok (true, b2)).
Proof.
  intros j pp rnds id b0 b Hj Cr W (ids & E).
  assert (S0 : stable_ok j b0). { unfold stable_create in Cr. destruct (_ =? 0); [|discriminate]. injection Cr as <-. split; [reflexivity|]. split; [auto|]. split; [reflexivity|]. cbn [bits len calloc].
    rewrite Z.shiftr_div_pow2 by lia. change (2 ^ 3) with 8. apply Z.div_mul. lia. }
  assert (S1 : stable_ok j b). { clear Cr. revert b0 S0 E. induction ids as [|x ids IH]; intros b0 S0 E; cbn [add_all] in E; [injection E as <-; auto|]. destruct (stable_add_ok j b0 x S0) as (b1 & E1 & S1 & _). rewrite E1 in E. cbn [obind] in E. eapply IH; eauto. }
  assert (T : forall b1, stable_ok j b1 -> (forall w, In w id -> at_ (bits b1) (w mod 2 ^ j) = 15) -> exists b2, stable_check b1 id = Ok (true, b2)).
  { intros b1 Sb Hb. destruct (stable_check_ok j b1 id Sb) as (r & b2 & E2 & _ & _ & ->). exists b2. rewrite E2. f_equal. f_equal. apply forallb_forall. intros w Hw. rewrite Hb by auto. reflexivity. }
  split.
  - destruct (stable_add_ok j b id S1) as (b1 & E1 & Sb & C). exists b1. split; auto.
  - destruct (stable_check_ok j b id S1) as (r & b1 & E1 & Sb & C & _). exists r, b1. split; auto.
Qed.
Example C20_stable_ex : obind (stable_create (2 ^ 6) 8 1 [1; 2; 3; 4; 5]) (fun b0 => obind (add_all stable_add b0 [mk 7; mk 30]) (fun b => obind (stable_check b (mk 40)) (fun r => Ok (fst r)))) = Ok false.
Proof. vm_compute. reflexivity. Qed.
(** But with the prune rate of the forward filter (8) adding one other item can forget it, for some random numbers. *)
Theorem C20_stable_forgets_refuted : exists x y rnds, wf_key x /\ wf_key y /\
  obind (stable_create 2048 8 8 rnds) (fun b0 => obind (stable_add b0 x) (fun b1 => obind (stable_add b1 y) (fun b2 => obind (stable_check b2 x) (fun r => Ok (fst r))))) = Ok false.
Proof. exists (mk 100), (mk 1000), (repeat 5000 8 ++ repeat 100 24). split; [apply mk_wf; lia|]. split; [apply mk_wf; lia|]. vm_compute. reflexivity. Qed.

(** ** C21 *)
(** After any history of adds, and removals of items that were there, in which fewer items than the capacity are
    present and no cell counts to 255, the filter answers exactly as a filter over the items present. *)
Theorem C21_partial : forall n c h, 0 < n -> 1 <= c <= 31 -> n * (8 * c) < 1048576 -> forall pp, 1 <= pp -> cvalid n (n * c / 2) 254 [] h ->
  exists b0 b, counting_create n (8 * c) pp = Ok b0 /\ capply_all b0 h = Ok b /\
    (forall id, counting_check b id = Ok (covered n (fold_left cstep h []) id)) /\
    (forall id, In id (fold_left cstep h []) -> counting_check b id = Ok true).
Proof.
  intros n c h Hn Hc Hb pp Hp V. destruct (c_create n c Hn ltac:(lia) Hb pp Hp ltac:(lia)) as (b0 & E0 & I0 & _). exists b0.
  assert (F : n * c / 2 < 65536) by (apply Z.div_lt_upper_bound; nia).
  destruct (c_history n c Hn ltac:(lia) Hb (n * c / 2) 254 h F ltac:(lia) [] b0 I0) as (b & E & Inv & Hh); [intros; cbn; lia|auto|]. exists b. split; auto. split; auto.
  assert (C : forall id, counting_check b id = Ok (covered n (fold_left cstep h []) id)) by (intros id; apply (c_check n c Hn ltac:(lia) Hb (n * c / 2)); auto). split; auto. intros id H. rewrite C, covered_in by auto. reflexivity.
Qed.
(** In particular histories that never have more than 31 items at a time (each touches a cell at most 8 times). *)
Fixpoint at_most (k : nat) (l : list key) (h : list cop) : Prop :=
  match h with
  | [] => True
  | o :: r => match o with CAdd id => wf_key id | CRemove id => In id l end /\ (length (cstep l o) <= k)%nat /\ at_most k (cstep l o) r
  end.
Theorem C21_few_items : forall n h, 64 <= n < 131072 -> at_most 31 [] h ->
  exists b0 b, counting_create n 8 1 = Ok b0 /\ capply_all b0 h = Ok b /\ forall id, counting_check b id = Ok (covered n (fold_left cstep h []) id).
Proof.
  intros n h Hn A.
  assert (V : cvalid n (n * 1 / 2) 254 [] h).
  { assert (G : forall h l, (length l <= 31)%nat -> Forall wf_key l -> at_most 31 l h -> cvalid n (n * 1 / 2) 254 l h); [|apply G; auto; cbn; lia].
    clear - Hn. intros h. induction h as [|o h IH]; intros l Hl Wl A; [constructor|]. cbn [at_most cvalid] in *. destruct A as (A1 & A2 & A3).
    assert (W' : Forall wf_key (cstep l o)) by (destruct o; cbn [cstep]; [constructor; auto|apply remove1_forall; auto]).
    split; auto. split; [rewrite Z.mul_1_r; assert (32 <= n / 2) by (apply Z.div_le_lower_bound; lia); lia|]. split; [|apply IH; auto]. intros pos. pose proof (hits_le n pos _ W'). lia. }
  destruct (C21_partial n 1 h ltac:(lia) ltac:(lia) ltac:(lia) 1 ltac:(lia) V) as (b0 & b & E0 & E & C & _). exists b0, b. auto.
Qed.
Example C21_ex : cvalid 64 32 254 [] [CAdd (mk 3); CAdd (mk 5); CRemove (mk 3)] /\
  obind (counting_create 64 8 1) (fun b0 => obind (capply_all b0 [CAdd (mk 3); CAdd (mk 5); CRemove (mk 3)]) (fun b => Ok (counting_check b (mk 5), counting_check b (mk 3)))) = Ok (Ok true, Ok false).
Proof.
  split; [|vm_compute; reflexivity]. cbn [cvalid cstep]. split; [apply mk_wf; lia|]. split; [reflexivity|]. split.
  - intros pos. pose proof (hits_le 64 pos [mk 3]). rewrite Forall_cons_iff in H. specialize (H ltac:(split; [apply mk_wf; lia|constructor])). cbn [length] in H. lia.
  - split; [apply mk_wf; lia|]. split; [reflexivity|]. assert (H : Forall wf_key [mk 5; mk 3]) by (repeat constructor; unfold is_word; lia). split.
    + intros pos. pose proof (hits_le 64 pos _ H). cbn [length] in *. lia.
    + split; [right; left; reflexivity|]. split; [reflexivity|]. split; [|exact I]. intros pos. pose proof (hits_le 64 pos [mk 5]). rewrite Forall_cons_iff in H0. specialize (H0 ltac:(split; [apply mk_wf; lia|constructor])). change (remove1 (mk 3) [mk 5; mk 3]) with [mk 5]. cbn [length] in H0. lia.
Qed.
(** Without the bound: an item added 255 times, or 256 times, is reported as not contained. *)
Theorem C21_saturation_refuted : exists id, wf_key id /\ forall k, k = 255%nat \/ k = 256%nat ->
  obind (counting_create 8192 8 1) (fun b0 => obind (capply_all b0 (repeat (CAdd id) k)) (fun b => counting_check b id)) = Ok false.
Proof. exists (mk 3). split; [apply mk_wf; lia|]. intros k [->| ->]; vm_compute; reflexivity. Qed.
(** ... and removing from a full filter stops the process. *)
Theorem C21_full_refuted : exists ids x, In x ids /\
  obind (counting_create 16 8 1) (fun b0 => obind (capply_all b0 (map CAdd ids)) (fun b => Ok (counting_remove b x))) = Ok Abort.
Proof. exists (map (fun k => mk (Z.of_nat k)) (seq 0 8)), (mk 3). split; [do 3 right; left; reflexivity|]. vm_compute. reflexivity. Qed.

(** ** C22 *)
Lemma built_of e b : Forall wf_key (items e) -> routing e = Ok b -> Built (items e) b.
Proof.
  intros W E. destruct (routing_build e W) as [P N]. destruct (Z.le_gt_cases (Z.of_nat (length (items e))) 64) as [L|L]; [|rewrite N in E by lia; discriminate].
  destruct (P L) as (b' & E' & Bu). congruence.
Qed.
(** A routing filter built by adding and uniting: up to 64 items it answers exactly according to the cells of the items
    put in (the counters do not overflow), with more the process stops. *)
Theorem C22_exact : forall e, Forall wf_key (items e) ->
  (Z.of_nat (length (items e)) <= 64 -> exists b, routing e = Ok b /\ free_items b = 64 - Z.of_nat (length (items e)) /\
     (forall id, wf_key id -> nbf_check b id = Ok (routed (items e) id)) /\ (forall id, In id (items e) -> nbf_check b id = Ok true)) /\
  (64 < Z.of_nat (length (items e)) -> routing e = Abort).
Proof.
  intros e W. destruct (routing_build e W) as [P N]. split; [|exact N]. intros L. destruct (P L) as (b & E & Bu). exists b. split; auto. split; [apply Bu|].
  split; [intros id Wi; apply built_check; auto|]. intros id H. rewrite Forall_forall in W. rewrite (built_check _ _ _ Bu (W id H)), routed_in by auto. reflexivity.
Qed.
(** Ageing: found for 15 decrements after the last add or union, not found after 32. *)
Theorem C22_ageing : forall e b id, Forall wf_key (items e) -> wf_key id -> routing e = Ok b -> forall k, exists b', age_times k b = Ok b' /\
  ((k <= 15)%nat -> nbf_check b' id = Ok (routed (items e) id)) /\ ((32 <= k)%nat -> nbf_check b' id = Ok false).
Proof. intros e b id W Wi E k. apply built_age; auto. apply built_of; auto. Qed.
(** The heuristic is positive exactly for what the filter contains. *)
Theorem C22_heuristic : forall e b id, Forall wf_key (items e) -> wf_key id -> routing e = Ok b ->
  exists h, nbf_heuristic b id = Ok h /\ 0 <= h <= 255 /\ (0 < h <-> nbf_check b id = Ok true).
Proof. intros e b id W Wi E. destruct (built_heuristic _ _ id (built_of e b W E) Wi) as (h & E1 & B & H & _). exists h. auto. Qed.
(** Intersections contain what both contain. *)
Theorem C22_intersect : forall e1 e2 b1 b2, Forall wf_key (items e1) -> Forall wf_key (items e2) -> routing e1 = Ok b1 -> routing e2 = Ok b2 ->
  Z.of_nat (length (items e1) + length (items e2)) <= 64 ->
  (exists c b, nbf_intersect b1 b2 = Ok (c, b) /\ (forall id, wf_key id -> nbf_check b id = Ok (routed (items e1) id && routed (items e2) id)) /\
     (forall id, wf_key id -> routed (items e1) id && routed (items e2) id = true -> c = true)) /\
  (exists b, nbf_intersect_ignore_age b1 b2 = Ok (true, b) /\ (forall id, wf_key id -> nbf_check b id = Ok (routed (items e1) id && routed (items e2) id))).
Proof.
  intros e1 e2 b1 b2 W1 W2 E1 E2 L. pose proof (built_of _ _ W1 E1) as U1. pose proof (built_of _ _ W2 E2) as U2. rewrite <- app_length in L. split.
  - destruct (built_intersect _ _ _ _ U1 U2) as [P _]. destruct (P L) as (c & b & E & C & D). exists c, b. split; auto. split; auto. intros id Wi R. apply D. apply andb_true_iff in R as [R1 R2].
    pose proof (cells_valid id Wi) as V. destruct Wi as [Wl _]. destruct id as [|w id]; [discriminate|]. unfold routed, cells_of in *. cbn [cells_from forallb] in *. inversion V as [|? ? V0 _]; subst. exists (cell_of 0 w). split; auto. lia.
  - destruct (built_ignore_age _ _ _ _ U1 U2) as [P _]. destruct (P L) as (b & E & _ & C). exists b. auto.
Qed.
(** Comparisons, in terms of the cells of the items: containment, equality, similarity. *)
Theorem C22_comparisons : forall e1 e2 b1 b2, Forall wf_key (items e1) -> Forall wf_key (items e2) -> routing e1 = Ok b1 -> routing e2 = Ok b2 ->
  (exists r, nbf_containment b1 b2 = Ok r /\ (r = true <-> forall c, valid c -> cell_hits c (items e2) <= cell_hits c (items e1))) /\
  (exists r, nbf_cmp b1 b2 = Ok r /\ (r = 0 <-> forall c, valid c -> (0 < cell_hits c (items e1) <-> 0 < cell_hits c (items e2)))) /\
  (exists i u, nbf_similarity b1 b2 = Ok (i, u) /\ 0 <= i <= u /\
     (i = u <-> forall c, valid c -> cell_hits c (items e1) = cell_hits c (items e2)) /\
     (i = 0 <-> forall c, valid c -> cell_hits c (items e1) = 0 \/ cell_hits c (items e2) = 0)) /\
  (exists r, nbf_intersect_test b1 b2 = Ok r /\
     (r = true <-> forall c, valid c -> cell_hits c (items e2) <= cell_hits c (items e1) /\ (0 < cell_hits c (items e1) -> 0 < cell_hits c (items e2)))).
Proof.
  intros e1 e2 b1 b2 W1 W2 E1 E2. pose proof (built_of _ _ W1 E1) as U1. pose proof (built_of _ _ W2 E2) as U2. split; [apply built_containment; auto|]. split; [|split].
  - destruct (bu_ns _ _ U1) as (ag1 & N1 & _). destruct (bu_ns _ _ U2) as (ag2 & N2 & _). destruct (ns_cmp _ _ _ _ _ _ N1 N2) as (r & E & H & _); [intros; split; apply cell_hits_nonneg|]. exists r. auto.
  - destruct (built_similarity _ _ _ _ U1 U2) as (i & u & E & B & H1 & H2 & _). exists i, u. auto.
  - apply built_test; auto.
Qed.
(** A filter contains every filter built from a part of its items, and is similar to itself only completely. *)
Theorem C22_contains_parts : forall e1 e2 b1 b2 rest, Forall wf_key (items e1) -> routing e1 = Ok b1 -> routing e2 = Ok b2 -> Permutation (items e1) (items e2 ++ rest) ->
  nbf_containment b1 b2 = Ok true.
Proof.
  intros e1 e2 b1 b2 rest W E1 E2 P. assert (W' : Forall wf_key (items e2 ++ rest)) by (eapply Permutation_Forall; eauto). apply Forall_app in W' as [W2 _].
  destruct (built_containment _ _ _ _ (built_of _ _ W E1) (built_of _ _ W2 E2)) as (r & E & H). rewrite E. f_equal. apply H. intros c V.
  assert (Q : cell_hits c (items e1) = cell_hits c (items e2 ++ rest)). { clear -P. induction P; [reflexivity| |rewrite !cell_hits_cons; lia|congruence]. rewrite !cell_hits_cons. lia. }
  rewrite Q, cell_hits_app. pose proof (cell_hits_nonneg c rest). lia.
Qed.
(** Up to three items can be taken out again without losing any other (the filter must not be full). *)
Theorem C22_remove : forall e b xs rest id, Forall wf_key (items e) -> wf_key id -> routing e = Ok b -> Z.of_nat (length (items e)) < 64 -> (length xs <= 3)%nat ->
  removed xs (items e) = Some rest -> exists b', remove_all b xs = Ok b' /\ nbf_check b' id = Ok (routed rest id).
Proof.
  intros e b xs rest id W Wi E L Lx R. destruct (aged_remove_all xs 128 (items e) b rest ltac:(lia) (built_aged _ _ (built_of _ _ W E)) L R) as (b' & E' & A). exists b'. split; auto. eapply aged_check; [|exact A|auto].
  destruct (length xs) as [|[|[|[|]]]]; [reflexivity..|lia].
Qed.
Definition three : fexp := FUnion (FAdd (FAdd FNew (mk 5)) (mk 1000)) (FAdd FNew (mk 77)).
Example C22_ex : Forall wf_key (items three) /\ removed [mk 1000] (items three) = Some [mk 5; mk 77] /\
  obind (routing three) (fun b => obind (remove_all b [mk 1000]) (fun b' => Ok (nbf_check b (mk 1000), nbf_check b' (mk 1000), nbf_check b' (mk 5), nbf_check b (mk 6)))) = Ok (Ok true, Ok false, Ok true, Ok false).
Proof. split; [repeat constructor; unfold is_word; cbn; lia|]. split; [reflexivity|]. vm_compute. reflexivity. Qed.
(** The removal of more items forgets others: after adding an item nine times and removing it eight times, it should be
    there once and is not found (every removal halves the age of the cells). *)
Theorem C22_remove_refuted : exists x e rest, Forall wf_key (items e) /\ removed (repeat x 8) (items e) = Some rest /\ In x rest /\
  obind (routing e) (fun b => obind (remove_all b (repeat x 8)) (fun b' => nbf_check b' x)) = Ok false.
Proof.
  exists (mk 5), (Nat.iter 9 (fun e => FAdd e (mk 5)) FNew), [mk 5]. split; [cbn [Nat.iter nat_rect items]; repeat constructor; unfold is_word; cbn; lia|]. split; [vm_compute; reflexivity|]. split; [left; reflexivity|]. vm_compute. reflexivity.
Qed.
(** Removing from a full filter stops the process. *)
Theorem C22_remove_full_refuted : forall e b x, Forall wf_key (items e) -> length (items e) = 64%nat -> routing e = Ok b -> In x (items e) -> nbf_remove b x = Abort.
Proof. intros e b x W L E _. pose proof (bu_free _ _ (built_of _ _ W E)) as F. unfold nbf_remove. replace (free_items b =? 0) with true by lia. reflexivity. Qed.
(** The age of an intersection is positive exactly if all of the second filter is in the first one, unless the second
    filter holds a multiple of 32 items: then it is zero, even for a filter and itself. *)
Theorem C22_intersect_age_partial : forall e1 e2 b1 b2, Forall wf_key (items e1) -> Forall wf_key (items e2) -> routing e1 = Ok b1 -> routing e2 = Ok b2 ->
  exists h, nbf_intersect_age b1 b2 = Ok h /\
  (0 < h <-> Z.of_nat (length (items e2)) mod 32 <> 0 /\ forall c, valid c -> 0 < cell_hits c (items e2) -> 0 < cell_hits c (items e1)).
Proof. intros e1 e2 b1 b2 W1 W2 E1 E2. apply built_intersect_age; apply built_of; auto. Qed.
Theorem C22_intersect_age_refuted : forall e b, Forall wf_key (items e) -> length (items e) = 32%nat -> routing e = Ok b -> nbf_intersect_age b b = Ok 0.
Proof.
  intros e b W L E. pose proof (built_of _ _ W E) as U. destruct (built_intersect_age _ _ _ _ U U) as (h & E1 & H). rewrite E1. f_equal.
  assert (N : ~ 0 < h) by (intros P; apply H in P as [P _]; rewrite L in P; apply P; reflexivity).
  assert (0 <= h); [|lia]. unfold nbf_intersect_age in E1. destruct (negb _); [discriminate|]. injection E1 as <-. destruct (_ =? 0); [lia|].
  destruct (bu_ns _ _ U) as (ag & NS0 & A). assert (G : forall ks s, 0 <= s -> (forall k, In k ks -> 0 <= age b k) -> 0 <= fold_left (fun c k => if 0 <? age b k then if c <? age b k then c else age b k else 0) ks s).
  { clear. induction ks as [|k ks IH]; intros s Hs P; cbn [fold_left]; auto. apply IH; [|intros; apply P; right; auto]. destruct (0 <? age b k) eqn:?; [destruct (s <? age b k) eqn:?; lia|lia]. }
  apply G; [lia|]. intros k Hk. apply filter_In in Hk as [_ P]. lia.
Qed.
Example C22_intersect_age_ex : let e := Nat.iter 32 (fun e => FAdd e (mk 5)) FNew in Forall wf_key (items e) /\ length (items e) = 32%nat /\ obind (routing e) (fun b => Ok true) = Ok true.
Proof. cbn [Nat.iter nat_rect items]. split; [repeat constructor; unfold is_word; cbn; lia|]. split; [reflexivity|]. vm_compute. reflexivity. Qed.

(** ** C42: the rate limit *)
(** In every state a node can reach: as long as no counter reaches 255, at most max + 1 packets of a peer pass between
    two resets. *)
Theorem C42_limit_partial : forall configured h l ps acc l', reached configured h l -> Forall wf_key ps ->
  (forall pos, 0 <= pos < 8192 -> at_ (bits (filter_ l)) pos + hits 8192 pos ps <= 254) -> packets l [] ps = Ok (acc, l') ->
  forall peer, wf_key peer -> count_of peer acc <= max_per_sec l + 1.
Proof.
  intros cf h l ps acc l' R W B E peer Wp. pose proof (reached_inv _ _ _ R) as L. pose proof (limit_pos cf). rewrite (li_max _ _ L).
  apply (limit_run (limit_of cf) (at_ (bits (filter_ l))) ps ltac:(lia) W) with (acc := []) (l := l) (l' := l'); auto.
  - intros pos Hp. apply (li_cells _ _ L pos Hp).
  - intros pos Hp. cbn. lia.
  - intros pos Hp. specialize (B pos Hp). cbn. lia.
  - intros x _. cbn. lia.
Qed.
(** What is dropped is dropped because of traffic on the peer's positions above the limit. *)
Theorem C42_dropped_only_over_limit : forall configured h l peer l', reached configured h l -> wf_key peer -> packet l peer = Ok (false, l') ->
  l' = l /\ exists w, In w peer /\ max_per_sec l < at_ (bits (filter_ l)) (w mod 8192).
Proof.
  intros cf h l x l' R W E. pose proof (reached_inv _ _ _ R) as L. pose proof (limit_pos cf).
  destruct (packet_cases _ l x L ltac:(lia)) as (c & Ec & Bc & [[Q E1]|[(_ & _ & E1)|(_ & _ & l1 & E1 & _)]]); rewrite E1 in E; try discriminate. injection E as <-. split; auto.
  destruct (load_le _ l L x 0 c Ec ltac:(lia)) as (w & Hw & Ew). exists w. split; auto. rewrite Ew, (li_max _ _ L). lia.
Qed.
Example C42_ex : exists l, reached 2 [LPacket (mk 3)] l /\ obind (packets l [] (repeat (mk 3) 5)) (fun r => Ok (fst r)) = Ok (repeat (mk 3) 2) /\ Forall wf_key (repeat (mk 3) 5).
Proof.
  unfold reached. set (o := obind (limiter_init 2) (fun l0 => lapply_all l0 [LPacket (mk 3)])).
  assert (X : match o with Ok l => obind (packets l [] (repeat (mk 3) 5)) (fun r => Ok (fst r)) = Ok (repeat (mk 3) 2) | _ => False end) by (vm_compute; reflexivity).
  destruct o as [l| |] eqn:E; [|contradiction|contradiction]. exists l. split; [split; [repeat constructor; unfold is_word; lia|reflexivity]|]. split; [exact X|]. repeat constructor; unfold is_word; lia.
Qed.
(** With the default limit of 256 (and every limit from 254 on) nothing is ever dropped. *)
Theorem C42_no_limit_refuted : forall configured h l peer r l', reached configured h l -> 254 <= max_per_sec l -> packet l peer = Ok (r, l') -> r = true.
Proof.
  intros cf h l x r l' R Hm E. pose proof (reached_inv _ _ _ R) as L. rewrite (li_max _ _ L) in Hm.
  destruct (packet_cases _ l x L ltac:(lia)) as (c & Ec & Bc & [[Q E1]|[(_ & _ & E1)|(_ & _ & l1 & E1 & _)]]); [lia|congruence|congruence].
Qed.
(** ... and more than 4096 packets between two resets, from whatever peers, stop the process. *)
Theorem C42_burst_refuted : forall configured h l ps, reached configured h l -> 254 <= max_per_sec l -> 4096 < Z.of_nat (length ps) -> packets l [] ps = Abort.
Proof.
  intros cf h l ps R Hm Hl. pose proof (reached_inv _ _ _ R) as L. rewrite (li_max _ _ L) in Hm. apply (burst _ ps Hm [] l L). pose proof (li_free _ _ L). lia.
Qed.
(** Under every limit, a single packet per period from one peer stops the process after 4097 periods, because the
    reset does not give back what it did not see. *)
Theorem C42_slow_traffic_refuted : forall configured peer, wf_key peer -> NoDup (map (fun w => w mod 8192) peer) ->
  obind (limiter_init configured) (fun l => one_per_period l peer 4097) = Abort.
Proof.
  intros cf x W ND. destruct (l_init cf) as (l & E & L & Z0 & F). rewrite E. cbn [obind]. pose proof (limit_pos cf). apply (slow_traffic (limit_of cf) x 4097); auto. rewrite F. rewrite <- Z.ltb_lt. vm_compute. reflexivity.
Qed.
Example C42_slow_ex : wf_key (mk 3) /\ NoDup (map (fun w => w mod 8192) (mk 3)).
Proof. split; [apply mk_wf; lia|]. apply (NoDup_count_occ' Z.eq_dec). intros x H. cbn in H. repeat (destruct H as [<-|H]; [reflexivity|]). contradiction. Qed.

(** ** C43: duplicate messages *)
Lemma remembered_after l : forall s id, (forall w, In w id -> exists k, since s (w mod sz s) = Some k /\ 0 <= k) -> 1 <= shift s -> Forall (dop_ok 16) l -> Forall no_resize l ->
  forall m, (forall w, In w id -> match since s (w mod sz s) with Some k => k + total_shift (shift s) l < m | None => False end) ->
  forall w, In w id -> match since (fold_left dstep l s) (w mod sz (fold_left dstep l s)) with Some k => k < m | None => False end.
Proof.
  induction l as [|o l IH]; intros s id H0 Hs F N m H w Hw; cbn [fold_left].
  - specialize (H w Hw). cbn [total_shift] in H. destruct (since s _); [lia|contradiction].
  - inversion F as [|? ? Fo Fl]; subst. inversion N as [|? ? No Nl]; subst. apply (IH (dstep s o) id); auto.
    + intros v Hv. destruct (H0 v Hv) as (k & E & P). destruct o as [x| |q|n]; cbn [dstep sz since] in *; [|rewrite E|eauto|contradiction].
      * destruct (existsb _ x); [exists 0; split; [auto|lia]|eauto].
      * cbn. exists (shift s + k). split; [auto|lia].
    + destruct o; cbn in *; lia.
    + intros v Hv. specialize (H v Hv). destruct (H0 v Hv) as (k & E & P). rewrite E in H. destruct o as [x| |q|n]; cbn [dstep sz since shift total_shift] in *; [|rewrite E; cbn; lia|rewrite E; lia|contradiction].
      destruct (existsb _ x); [lia|]. rewrite E. lia.
Qed.
Lemma total_shift_nonneg l : forall pp, 0 <= pp -> Forall (dop_ok 16) l -> 0 <= total_shift pp l.
Proof.
  induction l as [|o l IH]; intros pp Hp F; cbn [total_shift]; [lia|]. inversion F as [|? ? Fo Fl]; subst. destruct o; cbn in Fo; auto; [specialize (IH pp Hp Fl); lia|]. apply IH; auto. lia.
Qed.
(** In any history of the duplicate filter (messages, cleanups, size and rate adjustments): a message that was delivered
    is discarded from then on, until the cleanups have shifted the filter by 16 bits in total or it was resized. *)
Theorem C43_no_duplicate_partial : forall n pp h b id b1 l b2, 0 < n <= 65535 -> 1 <= pp -> Forall (dop_ok 16) h ->
  dapply_all (decaying_create n 16 pp) h = Ok b -> wf_key id -> receive b id = Ok (true, b1) ->
  Forall (dop_ok 16) l -> Forall no_resize l -> total_shift (p b1) l < 16 -> dapply_all b1 l = Ok b2 -> receive b2 id = Ok (false, b2).
Proof.
  intros n pp h b id b1 l b2 Hn Hp Fh Eh W Er Fl Nl T El. assert (W16 : width_ok 16) by (right; reflexivity).
  destruct (dec_history 16 W16 h (mkDecay n pp (fun _ => None)) (decaying_create n 16 pp)) as [A|(b' & E & Inv & V)]; auto; [split; cbn; lia|apply dec_create; auto; lia|congruence|].
  rewrite Eh in E. injection E as <-. set (s := fold_left dstep h _) in *. destruct V as [V1 V2]. unfold receive in Er. rewrite (dec_check 16 W16 s b id) in Er by (auto; lia). cbn [obind] in Er.
  destruct (remembered 16 s id) eqn:Rm; [discriminate|]. destruct (Z.eq_dec (free_items b) 0) as [Z0|Z0]; [unfold decaying_add in Er; rewrite Z0 in Er; discriminate|].
  destruct (dec_add 16 W16 s b id ltac:(lia) Inv Z0) as (b1' & E1 & Inv1 & _). rewrite E1 in Er. cbn [obind] in Er. injection Er as <-.
  destruct (dec_history 16 W16 l (dstep s (DAdd id)) b1' (conj V1 V2) Inv1 Fl) as [A|(b2' & E2 & Inv2 & V')]; [congruence|]. rewrite El in E2. injection E2 as <-.
  unfold receive. rewrite (dec_check 16 W16 _ b2 id) by (auto; apply V'). cbn [obind].
  assert (Pb : p b1' = shift s) by (destruct Inv1; cbn in *; auto).
  assert (R : remembered 16 (fold_left dstep l (dstep s (DAdd id))) id = true).
  { assert (Z1 : forall w, In w id -> since (dstep s (DAdd id)) (w mod sz (dstep s (DAdd id))) = Some 0).
    { intros w Hw. cbn [dstep since sz]. replace (existsb _ id) with true; auto. symmetry. apply existsb_exists. exists w. split; auto. apply Z.eqb_refl. }
    unfold remembered. apply forallb_forall. intros w Hw. pose proof (remembered_after l (dstep s (DAdd id)) id) as RA.
    specialize (RA (fun w Hw => ex_intro _ 0 (conj (Z1 w Hw) (Z.le_refl 0))) V2 Fl Nl 16). cbv beta in RA.
    assert (H16 : forall w, In w id -> match since (dstep s (DAdd id)) (w mod sz (dstep s (DAdd id))) with Some k => k + total_shift (shift (dstep s (DAdd id))) l < 16 | None => False end) by (intros v Hv; rewrite Z1 by auto; cbn [dstep shift]; rewrite <- Pb; lia).
    specialize (RA H16 w Hw). destruct (since _ _); [lia|contradiction]. }
  rewrite R. reflexivity.
Qed.
Example C43_ex : obind (dapply_all (decaying_create 64 16 1) [DAdd (mk 30)]) (fun b => obind (receive b (mk 3)) (fun '(r, b1) =>
  obind (dapply_all b1 (DAdd (mk 9) :: repeat DDecay 15)) (fun b2 => obind (receive b2 (mk 3)) (fun r2 => obind (dapply b2 DDecay) (fun b3 => obind (receive b3 (mk 3)) (fun r3 => Ok (r, fst r2, fst r3))))))) = Ok (true, false, true).
Proof. vm_compute. reflexivity. Qed.
(** Two threads that receive the same message at the same time can both deliver it, in every state of the filter. *)
Theorem C43_concurrent_refuted : forall n pp h b id, 0 < n <= 65535 -> 1 <= pp -> Forall (dop_ok 16) h -> dapply_all (decaying_create n 16 pp) h = Ok b -> 2 <= free_items b ->
  decaying_check b id = Ok false -> exists b', two_steps id (Checking, Checking, b) (Delivered, Delivered, b').
Proof.
  intros n pp h b id Hn Hp Fh Eh F C. assert (W16 : width_ok 16) by (right; reflexivity).
  destruct (dec_history 16 W16 h (mkDecay n pp (fun _ => None)) (decaying_create n 16 pp)) as [A|(b' & E & Inv & V)]; auto; [split; cbn; lia|apply dec_create; auto; lia|congruence|].
  rewrite Eh in E. injection E as <-. destruct V as [V1 V2]. destruct (dec_add 16 W16 _ b id (proj1 V1) Inv) as (b1 & E1 & Inv1 & F1); [lia|].
  destruct (fun Hs => dec_add 16 W16 _ b1 id Hs Inv1) as (b2 & E2 & _ & _); [exact (proj1 V1)|lia|]. exists b2.
  eapply two_more; [apply first_moves, t_new, C|]. eapply two_more; [apply second_moves, t_new, C|]. eapply two_more; [apply first_moves, t_add, E1|]. eapply two_more; [apply second_moves, t_add, E2|]. apply two_done.
Qed.
(** Resizing (the number of peers changed) makes a message deliverable again at once. *)
Theorem C43_resize_refuted : exists id b1, wf_key id /\ receive (decaying_create 8192 16 1) id = Ok (true, b1) /\
  obind (dapply b1 (DResize 16384)) (fun b2 => obind (receive b2 id) (fun r => Ok (fst r))) = Ok true.
Proof.
  exists (mk 3). destruct (receive (decaying_create 8192 16 1) (mk 3)) as [[r b1]| |] eqn:E; [|exfalso; vm_compute in E; discriminate|exfalso; vm_compute in E; discriminate].
  exists b1. split; [apply mk_wf; lia|].
  assert (Q : match receive (decaying_create 8192 16 1) (mk 3) with Ok (r, b1) => r = true /\ obind (dapply b1 (DResize 16384)) (fun b2 => obind (receive b2 (mk 3)) (fun r => Ok (fst r))) = Ok true | _ => False end) by (vm_compute; split; reflexivity).
  rewrite E in Q. destruct Q as [-> Q]. split; [reflexivity|exact Q].
Qed.
(** With 512 peers or more the filter has 65536 cells: the next cleanup does not come to an end. *)
Theorem C43_cleanup_hangs_refuted : forall b b', d b = 16 -> num_blocks b = 1 -> dapply b (DResize 65536) = Ok b' -> decaying_decay b' = Abort /\ free_items b' = 0 /\ forall id b'', receive b' id <> Ok (true, b'').
Proof.
  intros b b' D1 D2 E. cbn [dapply] in E. unfold decaying_clear in E. cbn [set_size size d num_blocks] in E. rewrite D1, D2 in E. change (65536 / 8 * 16 <? 1 * 65536 * 16 / 8) with false in E. cbn iota in E. injection E as <-.
  split; [reflexivity|]. split; [reflexivity|]. intros id b'' Er. unfold receive in Er. destruct (decaying_check _ id) as [[]| |]; cbn [obind] in Er; [discriminate| |discriminate|discriminate].
  unfold decaying_add in Er. cbn [free_items set_free] in Er. change (u16 (65536 * 16 / 16) =? 0) with true in Er. cbn in Er. discriminate.
Qed.
(** More new messages than there are cells between two cleanups stop the process. *)
Theorem C43_flood_refuted : forall ids, 8192 < Z.of_nat (length ids) -> add_all decaying_add (decaying_create 8192 16 1) ids = Abort.
Proof.
  intros ids H. apply (dec_full 16 (or_intror eq_refl) ids (mkDecay 8192 1 (fun _ => None)) _); [cbn; lia|apply dec_create; lia|]. change (free_items (decaying_create 8192 16 1)) with 8192. lia.
Qed.

Print Assumptions C20_standard.
Print Assumptions C20_standard_intersect.
Print Assumptions C20_scalable.
Print Assumptions C20_scalable_overflow_refuted.
Print Assumptions C20_odd_size_refuted.
Print Assumptions C20_decaying.
Print Assumptions C20_stable.
Print Assumptions C20_stable_forgets_refuted.
Print Assumptions C21_partial.
Print Assumptions C21_few_items.
Print Assumptions C21_saturation_refuted.
Print Assumptions C21_full_refuted.
Print Assumptions C22_exact.
Print Assumptions C22_ageing.
Print Assumptions C22_heuristic.
Print Assumptions C22_intersect.
Print Assumptions C22_comparisons.
Print Assumptions C22_contains_parts.
Print Assumptions C22_remove.
Print Assumptions C22_remove_refuted.
Print Assumptions C22_remove_full_refuted.
Print Assumptions C22_intersect_age_partial.
Print Assumptions C22_intersect_age_refuted.
Print Assumptions C42_limit_partial.
Print Assumptions C42_dropped_only_over_limit.
Print Assumptions C42_no_limit_refuted.
Print Assumptions C42_burst_refuted.
Print Assumptions C42_slow_traffic_refuted.
Print Assumptions C43_no_duplicate_partial.
Print Assumptions C43_concurrent_refuted.
Print Assumptions C43_resize_refuted.
Print Assumptions C43_cleanup_hangs_refuted.
Print Assumptions C43_flood_refuted.
