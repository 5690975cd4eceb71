(** C23: minhash signatures. *)
From Verif Require Import Base Minhash_Model Minhash_Spec Minhash_Proofs Minhash_Tree.

(** Multi mode (the default): for every seed, every even size and every list of tokens, the signature is the
    min/max signature of the set of tokens. *)
Theorem C23_signature : forall junk sz sd ts, 0 <= sz -> sz mod 2 = 0 ->
  exists h, obind (init sz MULTI sd) (fun h => push_all junk h ts) = Ok h /\
            is_signature sd (sz / 2) (fun t => In t ts) (signature h).
Proof.
  intros junk sz sd ts H0 H. destruct (init_sig sz sd H0 H) as (h0 & E0 & S0). rewrite E0. cbn [obind].
  destruct (push_all_sig junk sz sd ts _ _ S0) as (h & E & S). exists h. split; auto.
  destruct S as (_ & _ & _ & _ & S). eapply sig_ext; [|exact S]. intros t. cbn. tauto.
Qed.

(** Order and repetition do not matter. *)
Theorem C23_order_independent : forall junk junk' sz sd ts ts' h h', 0 <= sz -> (forall t, In t ts <-> In t ts') ->
  obind (init sz MULTI sd) (fun h => push_all junk h ts) = Ok h ->
  obind (init sz MULTI sd) (fun h => push_all junk' h ts') = Ok h' ->
  signature h = signature h'.
Proof.
  intros junk junk' sz sd ts ts' h h' H0 Hin E E'. destruct (Z.eq_dec (sz mod 2) 0) as [H|H].
  2:{ unfold init in E. replace (sz mod 2 =? 0) with false in E by lia. discriminate. }
  destruct (C23_signature junk sz sd ts H0 H) as (h1 & E1 & S1).
  destruct (C23_signature junk' sz sd ts' H0 H) as (h2 & E2 & S2).
  rewrite E in E1. rewrite E' in E2. injection E1 as <-. injection E2 as <-. exact (sig_unique _ _ _ _ _ _ Hin S1 S2).
Qed.

(** A pushed tree contributes exactly its shingles: runs of neighbouring keys and values, subtrees included. *)
Theorem C23_tree : forall junk sz sd ts es k keys, 0 <= sz -> sz mod 2 = 0 -> (1 <= k)%nat -> moderate (Sub [] es) ->
  (forall t, token_of keys k es t -> Z.of_nat (length t) < 512) ->
  exists h, obind (init sz MULTI sd) (fun h => obind (push_all junk h ts) (fun h => push_tree junk h es k keys)) = Ok h /\
            is_signature sd (sz / 2) (fun t => In t ts \/ token_of keys k es t) (signature h).
Proof.
  intros junk sz sd ts es k keys H0 H Hk M Hs. destruct (init_sig sz sd H0 H) as (h0 & E0 & S0). rewrite E0. cbn [obind].
  destruct (push_all_sig junk sz sd ts _ _ S0) as (h1 & E1 & S1). rewrite E1. cbn [obind].
  unfold push_tree. replace (k =? 0)%nat with false by (symmetry; apply Nat.eqb_neq; lia).
  destruct (tokens_succeed keys (Sub [] es) k [] es eq_refl M Hk Hs) as (l & El). rewrite El. cbn [obind].
  destruct (push_all_sig junk sz sd l _ _ S1) as (h & E & S). exists h. split; auto.
  destruct S as (_ & _ & _ & _ & S). eapply sig_ext; [|exact S]. intros t.
  pose proof (tokens_sound keys (Sub [] es) k [] es l eq_refl M Hk El t). cbv beta. tauto.
Qed.

(** Merging gives the signature of the union, except for one position: the first of the second half keeps
    the value of the first operand. *)
Theorem C23_merge_partial : forall junk sz sd ts us a b, 0 <= sz -> sz mod 2 = 0 ->
  obind (init sz MULTI sd) (fun h => push_all junk h ts) = Ok a ->
  obind (init sz MULTI sd) (fun h => push_all junk h us) = Ok b ->
  exists c u, merge a b = Ok c /\ is_signature sd (sz / 2) (fun t => In t ts \/ In t us) u /\
    length (signature c) = length u /\
    forall n, (n < length u)%nat -> nth n (signature c) 0 = if Z.of_nat n =? sz / 2 then nth n (signature a) 0 else nth n u 0.
Proof.
  intros junk sz sd ts us a b H0 H Ea Eb.
  destruct (init_sig sz sd H0 H) as (h0 & E0 & S0). rewrite E0 in Ea, Eb. cbn [obind] in Ea, Eb.
  destruct (push_all_sig junk sz sd ts _ _ S0) as (a' & Ea' & Sa). rewrite Ea in Ea'. injection Ea' as <-.
  destruct (push_all_sig junk sz sd us _ _ S0) as (b' & Eb' & Sb). rewrite Eb in Eb'. injection Eb' as <-.
  destruct (push_all_sig junk sz sd us _ _ Sa) as (u & Eu & Su).
  destruct Sa as (A1 & A2 & A3 & A4 & (A5 & A6)), Sb as (B1 & B2 & B3 & B4 & (B5 & B6)), Su as (U1 & U2 & U3 & U4 & Us).
  destruct (merge_at a b A4 B4 ltac:(lia) ltac:(congruence)) as (c & Ec & C1 & C2 & C3 & C4 & C5).
  exists c, (mins u). split; auto. split; [eapply sig_ext; [|exact Us]; intros t; cbn; tauto|].
  destruct Us as (U5 & U6). pose proof (half2 a A4) as Hh. destruct C4 as (_ & _ & C4).
  assert (Lc : length (mins c) = length (mins u)) by (rewrite A1 in *; lia). split; [exact Lc|].
  intros n Hn. unfold signature. rewrite A1 in *. set (half := sz / 2) in *.
  destruct (Z_lt_ge_dec (Z.of_nat n) half) as [Lt|Ge].
  - replace (Z.of_nat n =? half) with false by lia.
    destruct (C5 (Z.of_nat n) ltac:(lia)) as (D & _). unfold at_ in D. rewrite Nat2Z.id in D. rewrite D.
    destruct (A6 (Z.of_nat n) ltac:(lia)) as ((P1 & P2) & _). destruct (B6 (Z.of_nat n) ltac:(lia)) as ((Q1 & Q2) & _).
    destruct (U6 (Z.of_nat n) ltac:(lia)) as ((R1 & R2) & _). rewrite Nat2Z.id in *.
    apply Z.le_antisymm.
    + destruct R1 as [R|(t & [[[]|Ht]|Ht] & R)]; rewrite R.
      * pose proof (P2 _ (or_introl eq_refl)). lia.
      * pose proof (P2 (word sd t (Z.of_nat n)) (or_intror (ex_intro _ t (conj (or_intror Ht) eq_refl)))). lia.
      * pose proof (Q2 (word sd t (Z.of_nat n)) (or_intror (ex_intro _ t (conj (or_intror Ht) eq_refl)))). lia.
    + apply Z.min_glb; apply R2.
      * destruct P1 as [P|(t & [[]|Ht] & P)]; rewrite P; [left; auto|right; exists t; auto].
      * destruct Q1 as [P|(t & [[]|Ht] & P)]; rewrite P; [left; auto|right; exists t; auto].
  - destruct (C5 (Z.of_nat n - half) ltac:(lia)) as (_ & D). replace (half + (Z.of_nat n - half)) with (Z.of_nat n) in * by lia.
    unfold at_ in D. rewrite Nat2Z.id in D. rewrite D.
    replace (Z.of_nat n - half =? 0) with (Z.of_nat n =? half) by lia.
    destruct (Z.eqb_spec (Z.of_nat n) half) as [En|Nn]; [rewrite <- En, Nat2Z.id; reflexivity|].
    destruct (A6 (Z.of_nat n - half) ltac:(lia)) as (_ & (P1 & P2)). destruct (B6 (Z.of_nat n - half) ltac:(lia)) as (_ & (Q1 & Q2)).
    destruct (U6 (Z.of_nat n - half) ltac:(lia)) as (_ & (R1 & R2)). set (i := Z.of_nat n - half) in *.
    replace (half + i) with (Z.of_nat n) in * by lia. rewrite Nat2Z.id in *.
    apply Z.le_antisymm.
    + apply Z.max_lub; apply R2.
      * destruct P1 as [P|(t & [[]|Ht] & P)]; rewrite P; [left; auto|right; exists t; auto].
      * destruct Q1 as [P|(t & [[]|Ht] & P)]; rewrite P; [left; auto|right; exists t; auto].
    + destruct R1 as [R|(t & [[[]|Ht]|Ht] & R)]; rewrite R.
      * pose proof (P2 _ (or_introl eq_refl)). lia.
      * pose proof (P2 (word sd t i) (or_intror (ex_intro _ t (conj (or_intror Ht) eq_refl)))). lia.
      * pose proof (Q2 (word sd t i) (or_intror (ex_intro _ t (conj (or_intror Ht) eq_refl)))). lia.
Qed.

Definition sd0 : list Z := map Z.of_nat (seq 0 32).
Definition J0 (_ : Z) : Z := 0.
Definition of_tokens (m : mode) (sz : Z) (ts : list token) : outcome mh := obind (init sz m sd0) (fun h => push_all J0 h ts).

(** ... and that position really differs: size 2, one token each. *)
Theorem C23_merge_refuted :
  obind (of_tokens MULTI 2 [[1]]) (fun a => obind (of_tokens MULTI 2 [[2]]) (fun b => obind (of_tokens MULTI 2 [[1]; [2]]) (fun u =>
  obind (merge a b) (fun c => Ok (nth 0 (signature c) 0 =? nth 0 (signature u) 0, nth 1 (signature c) 0 =? nth 1 (signature u) 0)))))
  = Ok (true, false) \/
  obind (of_tokens MULTI 2 [[2]]) (fun a => obind (of_tokens MULTI 2 [[1]]) (fun b => obind (of_tokens MULTI 2 [[1]; [2]]) (fun u =>
  obind (merge a b) (fun c => Ok (nth 0 (signature c) 0 =? nth 0 (signature u) 0, nth 1 (signature c) 0 =? nth 1 (signature u) 0)))))
  = Ok (true, false).
Proof. first [left; vm_compute; reflexivity|right; vm_compute; reflexivity]. Qed.

(** Similarity of two signatures of the same size: the number of equal positions out of all positions in
    multi mode; symmetric, never above one, and one for equal signatures. *)
Theorem C23_similarity : forall a b, wf a -> wf b -> size a = size b -> size a < 65536 -> mh_mode a = mh_mode b ->
  exists n d, similarity a b = Ok (Ratio n d) /\ similarity b a = Ok (Ratio n d) /\ 0 <= n <= d /\
    (mh_mode a = MULTI -> d = size a /\
       n = Z.of_nat (length (filter (fun i => nth i (signature a) 0 =? nth i (signature b) 0) (seq 0 (Z.to_nat (size a)))))) /\
    (signature a = signature b -> n = d).
Proof.
  intros a b Wa Wb Es Hs Em. unfold similarity. rewrite <- Em, <- Es.
  replace (mode_eqb (mh_mode a) (mh_mode a)) with true by (destruct (mh_mode a); auto). cbn [negb].
  destruct Wa as (A0 & A1 & A2), Wb as (B0 & B1 & B2). rewrite Z.min_id, Z.max_id.
  assert (Ei : forall (c : bool) (x : Z), (if c then x else x) = x) by (intros []; auto). rewrite !Ei.
  replace (Z.of_nat (length (mins b)) <? size a) with false by lia. replace (Z.of_nat (length (mins a)) <? size a) with false by lia.
  rewrite !sim_fold by lia.
  assert (Sym : forall (P : list Z -> list Z -> Z -> bool), (forall i, P (mins a) (mins b) i = P (mins b) (mins a) i) ->
    filter (P (mins b) (mins a)) (zrange (size a)) = filter (P (mins a) (mins b)) (zrange (size a))).
  { intros P HP. apply filter_ext. auto. }
  rewrite (Sym (blank (mh_mode a))), (Sym (counted (mh_mode a))).
  2,3: (intros i; unfold counted, blank; rewrite (Z.eqb_sym (at_ (mins b) i)); destruct (Z.eqb_spec (at_ (mins a) i) (at_ (mins b) i)) as [->|]; reflexivity).
  eexists _, _. split; [reflexivity|]. split; [reflexivity|].
  assert (Lz : length (zrange (size a)) = Z.to_nat (size a)) by (unfold zrange; rewrite map_length, seq_length; auto).
  assert (Part : forall l, (length (filter (blank (mh_mode a) (mins a) (mins b)) l) + length (filter (counted (mh_mode a) (mins a) (mins b)) l) =
                   length (filter (fun i => (at_ (mins a) i =? at_ (mins b) i)%Z) l))%nat).
  { induction l as [|x l IH]; [reflexivity|]. cbn [filter]. unfold blank at 1, counted at 1.
    destruct (_ =? _); cbn [andb]; [|exact IH]. destruct (_ && _); cbn [negb length]; lia. }
  assert (Le : (length (filter (fun i => (at_ (mins a) i =? at_ (mins b) i)%Z) (zrange (size a))) <= Z.to_nat (size a))%nat).
  { rewrite <- Lz. generalize (zrange (size a)). induction l as [|x l IH]; cbn; auto. destruct (_ =? _); cbn; lia. }
  pose proof (Part (zrange (size a))) as P. split; [lia|]. split.
  - intros Hm. assert (Bl : filter (blank (mh_mode a) (mins a) (mins b)) (zrange (size a)) = []).
    { rewrite Hm. unfold blank. cbn [mode_eqb negb andb]. generalize (zrange (size a)). induction l as [|x l IH]; cbn; auto. rewrite andb_false_r. exact IH. }
    rewrite Bl in *. cbn [length] in *. split; [lia|]. rewrite <- Nat.add_0_l at 1. rewrite P. f_equal.
    unfold zrange, signature, at_. generalize (seq 0 (Z.to_nat (size a))). induction l as [|x l IH]; [reflexivity|]. cbn [map filter].
    rewrite Nat2Z.id. destruct (_ =? _); cbn [length]; lia.
  - intros Eq. unfold signature in Eq. rewrite Eq in *.
    assert (Al : filter (fun i => at_ (mins b) i =? at_ (mins b) i) (zrange (size a)) = zrange (size a)).
    { generalize (zrange (size a)). induction l as [|x l IH]; cbn; auto. rewrite Z.eqb_refl. f_equal; auto. }
    rewrite Al, Lz in P. lia.
Qed.

(** Signatures of different sizes are not recognised as incomparable: the shorter array is read beyond its end. *)
Theorem C23_different_sizes_refuted : forall a b, wf a -> wf b -> mh_mode a = MULTI -> mh_mode b = MULTI -> size b < size a ->
  similarity a b = UB /\ merge a b = UB.
Proof.
  intros a b (A0 & A1 & A2) (B0 & B1 & B2) Ma Mb H. unfold similarity, merge. rewrite Ma, Mb. cbn [mode_eqb negb].
  replace (Z.of_nat (length (mins b)) <? size a) with true by lia. auto.
Qed.

(** The other modes do depend on repetition or order. *)
Theorem C23_single_repetition_refuted :
  obind (of_tokens SINGLE 4 [[1]]) (fun a => obind (of_tokens SINGLE 4 [[1]; [1]]) (fun b =>
  Ok (forallb (fun i => nth i (signature a) 0 =? nth i (signature b) 0) [0; 1; 2; 3]%nat))) = Ok false.
Proof. vm_compute. reflexivity. Qed.

Theorem C23_fix_order_refuted :
  obind (of_tokens FIX 4 [[1]; [2]]) (fun a => obind (of_tokens FIX 4 [[2]; [1]]) (fun b =>
  Ok (forallb (fun i => nth i (signature a) 0 =? nth i (signature b) 0) [0; 1; 2; 3]%nat))) = Ok false.
Proof. vm_compute. reflexivity. Qed.

(** In the flexible mode a signature that grows contains whatever the allocator left in the new memory. *)
Theorem C23_flex_growth_refuted :
  obind (init 2 FLEX sd0) (fun h => obind (push_all (fun _ => 0) h [[1]; [2]]) (fun a => obind (push_all (fun _ => 1) h [[1]; [2]]) (fun b =>
  Ok (forallb (fun i => nth i (signature a) 0 =? nth i (signature b) 0) [0; 1; 2; 3]%nat)))) = Ok false.
Proof. vm_compute. reflexivity. Qed.

(** A value that renders to 512 bytes or more overflows the shingle buffer. *)
Theorem C23_tree_long_value_refuted : forall junk h s k, (1 <= k)%nat -> 512 <= Z.of_nat (length s) ->
  push_tree junk h [([97], Leaf s)] k false = UB.
Proof.
  intros junk h s k Hk H. unfold push_tree. replace (k =? 0)%nat with false by (symmetry; apply Nat.eqb_neq; lia).
  assert (E : local_shingle k [([97], Leaf s)] = 1%nat) by (unfold local_shingle; cbn [length]; lia).
  cbn [tree_tokens]. rewrite E. cbv zeta. cbn [obind value_tokens]. change (place 1 (repeat [] 1) (rendering (Leaf s))) with [s].
  cbn [Z.of_nat Pos.of_succ_nat]. change (1 - 1 <=? 0) with true. cbv iota. unfold joined. cbn [concat]. rewrite app_nil_r.
  replace (Z.of_nat (length s) <? 512) with false by lia. reflexivity.
Qed.

(** Two tokens in either order: the hypotheses are met and the signatures agree and are not the initial ones;
    and a tree with a subtree. *)
Example C23_ex :
  obind (of_tokens MULTI 4 [[1]; [2]; [1]]) (fun a => obind (of_tokens MULTI 4 [[2]; [1]]) (fun b =>
  Ok (forallb (fun i => nth i (signature a) 0 =? nth i (signature b) 0) [0; 1; 2; 3]%nat, nth 0 (signature a) 0 =? UMAX))) = Ok (true, false).
Proof. vm_compute. reflexivity. Qed.

Example C23_tree_ex :
  tree_tokens true 2 (Sub [] [([97], Leaf [1]); ([98], Sub [9] [([100], Leaf [5])]); ([99], Leaf [3])]) =
    Ok [[97; 98]; [98; 99]; [100]; [5]; [9; 3]].
Proof. vm_compute. reflexivity. Qed.

(** Signatures of different kinds: no similarity, and merging changes nothing. *)
Theorem C23_different_kinds : forall a b, mh_mode a <> mh_mode b -> similarity a b = Ok (Ratio 0 1) /\ merge a b = Ok a.
Proof.
  intros a b N. unfold similarity, merge.
  assert (E : mode_eqb (mh_mode a) (mh_mode b) = false) by (destruct (mh_mode a), (mh_mode b); auto; congruence).
  rewrite E. split; reflexivity.
Qed.

(** The value of a signature is its least entry. *)
Theorem C23_value : forall h, (forall x, In x (mins h) -> x <= UMAX) ->
  (forall x, In x (signature h) -> value h <= x) /\ (signature h <> [] -> In (value h) (signature h)).
Proof.
  intros h. unfold value, signature. set (f := fun v x => if x <? v then x else v).
  assert (L : forall l m, fold_left f l m <= m /\ (forall x, In x l -> fold_left f l m <= x) /\
                          (fold_left f l m = m \/ In (fold_left f l m) l)).
  { induction l as [|y l IH]; intros m; cbn [fold_left In]; [split; [lia|split; [tauto|auto]]|].
    destruct (IH (f m y)) as (A & B & C). assert (Q : f m y = m /\ m <= y \/ f m y = y /\ y <= m)
      by (unfold f; destruct (y <? m) eqn:E; lia).
    split; [lia|]. split; [intros x [<-|H]; [lia|auto]|].
    destruct C as [C|C]; [|auto]. destruct Q as [[Q _]|[Q _]]; rewrite C, Q; auto. }
  intros U. destruct (L (mins h) UMAX) as (A & B & C). split; [exact B|]. intros N.
  destruct C as [C|C]; [|exact C]. rewrite C in *.
  destruct (mins h) as [|y l]; [congruence|]. left.
  specialize (B y (or_introl eq_refl)). specialize (U y (or_introl eq_refl)). lia.
Qed.

Example C23_value_ex : obind (of_tokens MULTI 4 [[1]; [2]; [1]]) (fun a =>
  Ok (existsb (Z.eqb (value a)) (signature a), forallb (fun x => value a <=? x) (signature a), value a <? UMAX)) = Ok (true, true, true).
Proof. vm_compute. reflexivity. Qed.

Print Assumptions C23_signature.
Print Assumptions C23_order_independent.
Print Assumptions C23_tree.
Print Assumptions C23_merge_partial.
Print Assumptions C23_merge_refuted.
Print Assumptions C23_similarity.
Print Assumptions C23_different_sizes_refuted.
Print Assumptions C23_single_repetition_refuted.
Print Assumptions C23_fix_order_refuted.
Print Assumptions C23_flex_growth_refuted.
Print Assumptions C23_tree_long_value_refuted.
Print Assumptions C23_different_kinds.
Print Assumptions C23_value.
