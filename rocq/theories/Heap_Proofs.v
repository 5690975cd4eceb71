From Verif Require Import Base Heap_Model Heap_Spec.

Ltac Zify.zify_post_hook ::= Z.div_mod_to_equations.

Section P.
  Context {A : Type}.
  Variable cmp : A -> A -> bool.
  Hypothesis SW : strict_weak cmp.

  Notation le x y := (cmp y x = false) (only parsing).

  Lemma le_refl x : le x x. Proof. apply SW. Qed.
  Lemma le_trans x y z : le x y -> le y z -> le x z.
  Proof. apply (sw_trans cmp SW). Qed.
  Lemma lt_le x y : cmp x y = true -> le x y.
  Proof. apply (sw_asym cmp SW). Qed.

  (** heap order for all positions 2..n *)
  Definition ordered (h : nat -> A) (n : nat) : Prop :=
    forall i, (2 <= i <= n)%nat -> le (h (Nat.div i 2)) (h i).

  (* ---- swap and permutation ---- *)
  Lemma swap_l (h : nat -> A) i j : swap h i j i = h j.
  Proof. unfold swap. rewrite Nat.eqb_refl. auto. Qed.
  Lemma swap_r (h : nat -> A) i j : swap h i j j = h i.
  Proof. unfold swap. destruct (Nat.eqb j i) eqn:E; [apply Nat.eqb_eq in E; subst|rewrite Nat.eqb_refl]; auto. Qed.
  Lemma swap_o (h : nat -> A) i j k : k <> i -> k <> j -> swap h i j k = h k.
  Proof. intros. unfold swap. rewrite (proj2 (Nat.eqb_neq k i)), (proj2 (Nat.eqb_neq k j)); auto. Qed.

  Lemma map_ext_seq (f g : nat -> A) s n :
    (forall k, (s <= k < s + n)%nat -> f k = g k) -> map f (seq s n) = map g (seq s n).
  Proof. intros H. apply map_ext_in. intros k Hk. apply in_seq in Hk. apply H; lia. Qed.

  Lemma seq_split s n i : (s <= i < s + n)%nat ->
    seq s n = seq s (i - s) ++ i :: seq (S i) (s + n - S i).
  Proof.
    intros H. replace n with ((i - s) + S (s + n - S i))%nat at 1 by lia.
    rewrite seq_app. cbn [seq]. replace (s + (i - s))%nat with i by lia. reflexivity.
  Qed.

  Lemma swap_perm_lt (h : nat -> A) n i j : (1 <= i < j)%nat -> (j <= n)%nat ->
    Permutation (map (swap h i j) (seq 1 n)) (map h (seq 1 n)).
  Proof.
    intros Hi Hj.
    rewrite (seq_split 1 n i) by lia.
    rewrite (seq_split (S i) (1 + n - S i) j) by lia.
    rewrite !map_app. cbn [map]. rewrite !map_app. cbn [map].
    rewrite swap_l, swap_r.
    rewrite (map_ext_seq (swap h i j) h 1) by (intros; apply swap_o; lia).
    rewrite (map_ext_seq (swap h i j) h (S i)) by (intros; apply swap_o; lia).
    rewrite (map_ext_seq (swap h i j) h (S j)) by (intros; apply swap_o; lia).
    apply Permutation_app_head.
    etransitivity; [apply perm_skip; symmetry; apply Permutation_middle|].
    etransitivity; [apply perm_swap|].
    apply perm_skip. apply Permutation_middle.
  Qed.

  Lemma swap_comm_perm (h : nat -> A) n i j : (1 <= i <= n)%nat -> (1 <= j <= n)%nat ->
    Permutation (map (swap h i j) (seq 1 n)) (map h (seq 1 n)).
  Proof.
    intros Hi Hj. destruct (lt_eq_lt_dec i j) as [[H|H]|H].
    - apply swap_perm_lt; lia.
    - subst. erewrite map_ext_seq; [reflexivity|]. intros k Hk. unfold swap.
      destruct (Nat.eqb k j) eqn:E; auto. apply Nat.eqb_eq in E; subst; auto.
    - rewrite <- (swap_perm_lt h n j i) by lia. erewrite map_ext_seq; [reflexivity|].
      intros k Hk. unfold swap. destruct (Nat.eqb k i) eqn:E1, (Nat.eqb k j) eqn:E2; auto.
      apply Nat.eqb_eq in E1, E2. lia.
  Qed.

  Lemma parent_eq i : (1 < i)%nat -> heap_parent i = Nat.div i 2.
  Proof. intros. unfold heap_parent. destruct (Nat.eqb i 1) eqn:E; auto. apply Nat.eqb_eq in E; lia. Qed.

  Lemma div2_bounds i : (2 <= i)%nat -> (1 <= Nat.div i 2 < i)%nat.
  Proof. intros. lia. Qed.

  (* ---- sift up ---- *)
  Definition up_inv (h : nat -> A) (n i : nat) : Prop :=
    (forall k, (2 <= k <= n)%nat -> k <> i -> le (h (Nat.div k 2)) (h k)) /\
    (forall k, (2 <= k <= n)%nat -> Nat.div k 2 = i -> (2 <= i)%nat -> le (h (Nat.div i 2)) (h k)).

  Lemma sift_up_ok fuel : forall h n i,
    (1 <= i <= n)%nat -> (i <= fuel)%nat -> up_inv h n i ->
    ordered (sift_up cmp fuel h i) n /\
    Permutation (map (sift_up cmp fuel h i) (seq 1 n)) (map h (seq 1 n)).
  Proof.
    induction fuel as [|fuel IH]; intros h n i Hi Hf [I1 I2]; [lia|].
    cbn [sift_up]. destruct (Nat.ltb 1 i) eqn:E1; cbn [andb].
    - apply Nat.ltb_lt in E1. rewrite parent_eq by lia.
      pose proof (div2_bounds i ltac:(lia)) as Hp. set (p := Nat.div i 2) in *.
      destruct (cmp (h i) (h p)) eqn:E2.
      + assert (Hup : up_inv (swap h i p) n p).
        { split.
          - intros k Hk Hkp. destruct (Nat.eq_dec k i) as [->|Hki].
            + fold p. rewrite swap_l, swap_r. apply lt_le; auto.
            + rewrite (swap_o _ _ _ k) by auto.
              destruct (Nat.eq_dec (Nat.div k 2) i) as [E|E].
              * rewrite E, swap_l. apply I2; auto; lia.
              * destruct (Nat.eq_dec (Nat.div k 2) p) as [E'|E'].
                -- rewrite E', swap_r. apply le_trans with (h p); [apply lt_le; auto|]. rewrite <- E'. apply I1; auto.
                -- rewrite swap_o by auto. apply I1; auto.
          - intros k Hk Hkp Hp2. pose proof (div2_bounds p Hp2).
            rewrite (swap_o _ _ _ (Nat.div p 2)) by lia.
            assert (Lp : le (h (Nat.div p 2)) (h p)) by (apply I1; lia).
            destruct (Nat.eq_dec k i) as [->|Hki].
            + rewrite swap_l; auto.
            + assert (k <> p) by lia. rewrite swap_o by auto. apply le_trans with (h p); auto.
              rewrite <- Hkp. apply I1; auto. }
        destruct (IH (swap h i p) n p ltac:(lia) ltac:(lia) Hup) as [O P].
        split; auto. rewrite P. apply swap_comm_perm; lia.
      + split; [|reflexivity]. intros k Hk. destruct (Nat.eq_dec k i) as [->|Hki]; auto.
    - apply Nat.ltb_ge in E1. assert (i = 1%nat) by lia. subst i.
      split; [|reflexivity]. intros k Hk. apply I1; auto. lia.
  Qed.

  (* ---- sift down ---- *)
  Definition down_inv (h : nat -> A) (n i : nat) : Prop :=
    (forall k, (2 <= k <= n)%nat -> Nat.div k 2 <> i -> le (h (Nat.div k 2)) (h k)) /\
    (forall k, (2 <= k <= n)%nat -> Nat.div k 2 = i -> (2 <= i)%nat -> le (h (Nat.div i 2)) (h k)).

  Lemma w16_id n : Z.of_nat n < 65536 -> w16 n = n.
  Proof. intros. unfold w16. rewrite u16_id by lia. lia. Qed.

  Lemma heapify_ok fuel : forall h n i,
    (1 <= i)%nat -> (i <= n \/ n = 0)%nat -> (n - i < fuel)%nat -> Z.of_nat n <= 32766 -> down_inv h n i ->
    ordered (heapify cmp fuel n h i) n /\
    Permutation (map (heapify cmp fuel n h i) (seq 1 n)) (map h (seq 1 n)).
  Proof.
    induction fuel as [|fuel IH]; intros h n i Hi Hn Hf Hb [D1 D2]; [lia|].
    destruct (Nat.eq_dec n 0) as [->|Hn0].
    { split; [intros k Hk; lia|]. reflexivity. }
    cbn [heapify].
    unfold heap_left, heap_right. rewrite !w16_id by lia.
    set (r := (2 * i + 1)%nat). set (l := (2 * i)%nat).
    assert (Hdl : Nat.div l 2 = i) by (unfold l; lia).
    assert (Hdr : Nat.div r 2 = i) by (unfold r; lia).
    set (la := if Nat.leb l n && cmp (h l) (h i) then l else i).
    set (lb := if Nat.leb r n && cmp (h r) (h la) then r else la).
    assert (Hla : (la = l /\ (l <= n)%nat /\ cmp (h l) (h i) = true) \/
                  (la = i /\ ((l <= n)%nat -> le (h i) (h l)))).
    { unfold la. destruct (Nat.leb l n) eqn:E; cbn [andb].
      - apply Nat.leb_le in E. destruct (cmp (h l) (h i)) eqn:E2; [left|right]; auto.
      - apply Nat.leb_gt in E. right; split; auto. lia. }
    assert (Hlb : (lb = r /\ (r <= n)%nat /\ cmp (h r) (h la) = true) \/
                  (lb = la /\ ((r <= n)%nat -> le (h la) (h r)))).
    { unfold lb. destruct (Nat.leb r n) eqn:E; cbn [andb].
      - apply Nat.leb_le in E. destruct (cmp (h r) (h la)) eqn:E2; [left|right]; auto.
      - apply Nat.leb_gt in E. right; split; auto. lia. }
    clearbody la lb.
    assert (El : l = (2 * i)%nat) by reflexivity. assert (Er : r = (2 * i + 1)%nat) by reflexivity. clearbody l r.
    assert (Hchild : forall k, (2 <= k <= n)%nat -> Nat.div k 2 = i -> k = l \/ k = r) by (intros; lia).
    destruct (Nat.eqb lb i) eqn:E.
    - apply Nat.eqb_eq in E. split; [|reflexivity].
      assert (Hab : la = i /\ lb = i) by lia. destruct Hab as [-> _].
      intros k Hk. destruct (Nat.eq_dec (Nat.div k 2) i) as [E3|E3]; auto.
      rewrite E3. destruct (Hchild k Hk E3) as [->| ->].
      + destruct Hla as [[Hx _]|[_ Hx]]; [lia|apply Hx; lia].
      + destruct Hlb as [[Hx _]|[_ Hx]]; [lia|apply Hx; lia].
    - apply Nat.eqb_neq in E.
      (* the chosen child *)
      assert (Hc : (lb = l \/ lb = r) /\ (lb <= n)%nat /\ cmp (h lb) (h i) = true /\
                   (forall k, (2 <= k <= n)%nat -> Nat.div k 2 = i -> le (h lb) (h k))).
      { destruct Hlb as [(-> & Hr & Hcr)|(-> & Hr)].
        - destruct Hla as [(-> & Hl & Hcl)|(-> & Hl)].
          + repeat split; auto; try lia.
            * destruct (cmp (h r) (h i)) eqn:Ec; auto.
              assert (Hx : le (h l) (h r)) by (apply le_trans with (h i); auto; apply lt_le; auto). congruence.
            * intros k Hk Hki. destruct (Hchild k Hk Hki) as [->| ->]; [apply lt_le; auto|apply le_refl].
          + repeat split; auto; try lia. intros k Hk Hki. destruct (Hchild k Hk Hki) as [->| ->]; [|apply le_refl].
            apply le_trans with (h i); [apply lt_le; auto|apply Hl; lia].
        - destruct Hla as [(-> & Hl & Hcl)|(-> & Hl)]; [|congruence].
          repeat split; auto; try lia. intros k Hk Hki. destruct (Hchild k Hk Hki) as [->| ->]; [apply le_refl|apply Hr; lia]. }
      destruct Hc as (Hlr & Hln & Hci & Hmin).
      assert (Hdlb : Nat.div lb 2 = i) by (destruct Hlr as [->| ->]; auto).
      assert (Hlb2 : (i < lb)%nat) by (destruct Hlr as [->| ->]; lia).
      assert (Hdn : down_inv (swap h i lb) n lb).
      { split.
        - intros k Hk Hkd. destruct (Nat.eq_dec (Nat.div k 2) i) as [E3|E3].
          + rewrite E3, swap_l. destruct (Nat.eq_dec k lb) as [->|Hkl].
            * rewrite swap_r. apply lt_le; auto.
            * rewrite swap_o by lia. apply Hmin; auto.
          + rewrite (swap_o _ _ _ (Nat.div k 2)) by auto.
            destruct (Nat.eq_dec k i) as [->|Hki].
            * rewrite swap_l. apply D2; auto; lia.
            * destruct (Nat.eq_dec k lb) as [->|Hkl]; [congruence|]. rewrite swap_o by auto. apply D1; auto.
        - intros k Hk Hkd _. rewrite Hdlb, swap_l.
          assert (k <> i /\ k <> lb) as [? ?] by lia. rewrite swap_o by auto. rewrite <- Hkd. apply D1; auto. lia. }
      destruct (IH (swap h i lb) n lb ltac:(lia) ltac:(lia) ltac:(lia) Hb Hdn) as [O P].
      split; auto. rewrite P. apply swap_comm_perm; lia.
  Qed.

  (* ---- operations ---- *)
  Definition inv (q : heap A) : Prop := ordered (hel q) (hcount q) /\ (hcount q <= hsize q)%nat /\ Z.of_nat (hsize q) <= 32767.

  Lemma inv_init d n : Z.of_nat n <= 32767 -> inv (heap_init d n).
  Proof. intros; split; [intros i Hi; cbn in Hi; lia|]. cbn; lia. Qed.

  Lemma set_eq (h : nat -> A) i x : set h i x i = x.
  Proof. unfold set. rewrite Nat.eqb_refl. auto. Qed.
  Lemma set_neq (h : nat -> A) i x k : k <> i -> set h i x k = h k.
  Proof. intros. unfold set. rewrite (proj2 (Nat.eqb_neq k i)); auto. Qed.

  Lemma insert_ok q x q' : inv q -> heap_insert cmp q x = Ok q' ->
    inv q' /\ Permutation (heap_list q') (x :: heap_list q) /\ hcount q' = S (hcount q) /\ hsize q' = hsize q.
  Proof.
    intros (O & C & Sz). unfold heap_insert. destruct (Nat.ltb (hcount q) (hsize q)) eqn:E; [|discriminate].
    intros H; injection H as <-. apply Nat.ltb_lt in E. cbn [hcount hsize].
    set (n := hcount q) in *.
    assert (U : up_inv (set (hel q) (S n) x) (S n) (S n)).
    { split.
      - intros k Hk Hne. pose proof (div2_bounds k ltac:(lia)). rewrite !set_neq by lia. apply O; lia.
      - intros k Hk Hd _. pose proof (div2_bounds k ltac:(lia)). lia. }
    destruct (sift_up_ok (S n) (set (hel q) (S n) x) (S n) (S n) ltac:(lia) ltac:(lia) U) as [O' P].
    unfold inv. cbn [hel hcount hsize]. repeat split; auto; try lia.
    unfold heap_list. cbn [hel hcount]. fold n. rewrite P.
    rewrite seq_S, map_app. cbn [map]. rewrite set_eq.
    rewrite (map_ext_seq _ (hel q)) by (intros; apply set_neq; lia).
    rewrite <- Permutation_cons_append. reflexivity.
  Qed.

  Lemma root_min h n : ordered h n -> forall i, (1 <= i <= n)%nat -> le (h 1%nat) (h i).
  Proof.
    intros O i. induction i as [i IH] using lt_wf_ind. intros Hi.
    destruct (Nat.eq_dec i 1) as [->|]; [apply le_refl|].
    pose proof (div2_bounds i ltac:(lia)).
    apply le_trans with (h (Nat.div i 2)); [apply IH; lia|apply O; lia].
  Qed.

  Lemma head_ok q y q' : inv q -> heap_head cmp q = Ok (y, q') ->
    inv q' /\ Permutation (heap_list q) (y :: heap_list q') /\
    (forall z, In z (heap_list q) -> le y z) /\ hcount q = S (hcount q') /\ hsize q' = hsize q.
  Proof.
    intros (O & C & Sz). unfold heap_head. destruct (Nat.ltb 0 (hcount q)) eqn:E; [|discriminate].
    apply Nat.ltb_lt in E. intros H; injection H as <- <-.
    set (n := hcount q) in *. set (h := hel q) in *.
    set (h2 := set (set h 1 (h n)) n (set h 1 (h n) 0%nat)).
    assert (Hmin : forall z, In z (heap_list q) -> le (h 1%nat) z).
    { intros z Hz. unfold heap_list in Hz. apply in_map_iff in Hz. destruct Hz as (k & <- & Hk).
      apply in_seq in Hk. apply root_min with (n := n); auto. fold n in Hk. lia. }
    assert (Hh2 : forall k, (2 <= k < n)%nat -> h2 k = h k).
    { intros k Hk. unfold h2. rewrite !set_neq by lia. reflexivity. }
    assert (Hdn : down_inv h2 (pred n) 1).
    { split.
      - intros k Hk Hd. pose proof (div2_bounds k ltac:(lia)). rewrite !Hh2 by lia. apply O. fold n. lia.
      - intros; lia. }
    assert (G : ordered (heapify cmp n (pred n) h2 1) (pred n) /\
                Permutation (map (heapify cmp n (pred n) h2 1) (seq 1 (pred n))) (map h2 (seq 1 (pred n)))).
    { apply heapify_ok; auto; lia. }
    destruct G as [O' P].
    split; [|split; [|split; [|cbn [hcount hsize]; lia]]].
    - unfold inv; cbn [hel hcount hsize]. repeat split; auto; lia.
    - unfold heap_list; cbn [hel hcount]. fold n h. rewrite P.
      destruct n as [|m]; [lia|]. cbn [Nat.pred].
      destruct m as [|m].
      + cbn. reflexivity.
      + cbn [seq map]. apply perm_skip.
        assert (E1 : h2 1%nat = h (S (S m))) by (unfold h2; rewrite set_neq by lia; apply set_eq).
        rewrite E1.
        rewrite (map_ext_seq h2 h 2 m) by (intros; apply Hh2; lia).
        change (h 2%nat :: map h (seq 3 m)) with (map h (seq 2 (S m))). rewrite seq_S, map_app. cbn [map].
        replace (2 + m)%nat with (S (S m)) by lia.
        symmetry. apply Permutation_cons_append.
    - auto.
  Qed.

  Lemma list_length q : length (@heap_list A q) = hcount q.
  Proof. unfold heap_list. rewrite map_length, seq_length. auto. Qed.

  (** Run of a history of operations. *)
  Fixpoint run (q : heap A) (ops : list (pq_op A)) : outcome (list (option A) * heap A) :=
    match ops with
    | [] => Ok ([], q)
    | PInsert x :: os =>
        obind (heap_insert cmp q x) (fun q' => obind (run q' os) (fun '(r, q2) => Ok (None :: r, q2)))
    | PTake :: os =>
        obind (heap_head cmp q) (fun '(y, q') => obind (run q' os) (fun '(r, q2) => Ok (Some y :: r, q2)))
    end.

  Lemma run_ok ops : forall q as_ q', inv q -> run q ops = Ok (as_, q') ->
    inv q' /\ pq_run cmp (hsize q) (heap_list q) ops as_ (heap_list q').
  Proof.
    induction ops as [|o ops IH]; intros q as_ q' I H; cbn [run] in H.
    - injection H as <- <-. split; auto. constructor.
    - destruct o as [x|].
      + destruct (heap_insert cmp q x) as [q1| |] eqn:E; try discriminate. cbn [obind] in H.
        destruct (run q1 ops) as [[r q2]| |] eqn:E2; try discriminate. cbn [obind] in H. injection H as <- <-.
        destruct (insert_ok q x q1 I E) as (I1 & P & Hc & Hs).
        destruct (IH q1 r q2 I1 E2) as [I2 R]. split; auto.
        econstructor; [|rewrite <- Hs; exact R]. constructor; [|symmetry; auto].
        rewrite list_length. destruct I1 as (_ & ? & _). lia.
      + destruct (heap_head cmp q) as [[y q1]| |] eqn:E; try discriminate. cbn [obind] in H.
        destruct (run q1 ops) as [[r q2]| |] eqn:E2; try discriminate. cbn [obind] in H. injection H as <- <-.
        destruct (head_ok q y q1 I E) as (I1 & P & M & Hc & Hs).
        destruct (IH q1 r q2 I1 E2) as [I2 R]. split; auto.
        econstructor; [|rewrite <- Hs; exact R]. constructor; auto.
  Qed.

  (** Draining. *)
  Fixpoint drain (n : nat) (q : heap A) : list A :=
    match n with
    | O => []
    | S n' => match heap_head cmp q with Ok (y, q') => y :: drain n' q' | _ => [] end
    end.

  Lemma drain_ok n : forall q, inv q -> hcount q = n ->
    Permutation (drain n q) (heap_list q) /\ StronglySorted (fun x y => le x y) (drain n q).
  Proof.
    induction n as [|n IH]; intros q I Hn; cbn [drain].
    - unfold heap_list. rewrite Hn. split; constructor.
    - destruct (heap_head cmp q) as [[y q']| |] eqn:E.
      + destruct (head_ok q y q' I E) as (I1 & P & M & Hc & Hs).
        destruct (IH q' I1 ltac:(lia)) as [P' S'].
        split; [rewrite P; apply perm_skip; auto|].
        constructor; auto. apply Forall_forall. intros z Hz. apply M.
        rewrite P. right. rewrite <- P'. auto.
      + unfold heap_head in E. replace (Nat.ltb 0 (hcount q)) with true in E by (symmetry; apply Nat.ltb_lt; lia). discriminate.
      + unfold heap_head in E. destruct (Nat.ltb 0 (hcount q)); discriminate.
  Qed.

  Lemma first_is_head q y : heap_first q = Ok y <-> exists q', heap_head cmp q = Ok (y, q').
  Proof.
    unfold heap_first, heap_head. destruct (Nat.ltb 0 (hcount q)).
    - split.
      + intros H; injection H as <-. eexists; reflexivity.
      + intros [q' H]. injection H as <- _. reflexivity.
    - split; [discriminate|intros [q' H]; discriminate].
  Qed.

  Lemma run_defined ops : forall q, inv q ->
    (exists r q', run q ops = Ok (r, q')) \/ run q ops = Abort.
  Proof.
    induction ops as [|[x|] ops IH]; intros q I; cbn [run]; eauto.
    - destruct (heap_insert cmp q x) eqn:E; cbn [obind]; auto.
      + destruct (insert_ok q x a I E) as (I1 & _). destruct (IH a I1) as [(r & q' & ->)| ->]; cbn [obind]; eauto.
      + unfold heap_insert in E. destruct (Nat.ltb _ _); discriminate.
    - destruct (heap_head cmp q) as [[y q1]| |] eqn:E; cbn [obind]; auto.
      + destruct (head_ok q y q1 I E) as (I1 & _). destruct (IH q1 I1) as [(r & q' & ->)| ->]; cbn [obind]; eauto.
      + unfold heap_head in E. destruct (Nat.ltb _ _); discriminate.
  Qed.
End P.
