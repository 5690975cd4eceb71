From Verif Require Import Base Lists_Model Lists_Spec.

Section LP.
  Context {A : Type}.
  Implicit Types (m : mem A) (addrs : list nat) (vals : list A).

  Lemma mset_eq m a n : mset m a n a = Some n.
  Proof. unfold mset. rewrite Nat.eqb_refl. auto. Qed.
  Lemma mset_neq m a n k : k <> a -> mset m a n k = m k.
  Proof. intros. unfold mset. rewrite (proj2 (Nat.eqb_neq k a)); auto. Qed.

  Lemma get_ok m a n : a <> 0%nat -> m a = Some n -> get m a = Ok n.
  Proof. intros H1 H2. unfold get. rewrite (proj2 (Nat.eqb_neq a 0)), H2; auto. Qed.

  Lemma set_flink_ok m a x n : a <> 0%nat -> m a = Some n ->
    set_flink m a x = Ok (mset m a (mkNode x (blink n) (val n))).
  Proof. intros. unfold set_flink. rewrite (get_ok m a n); auto. Qed.
  Lemma set_blink_ok m a x n : a <> 0%nat -> m a = Some n ->
    set_blink m a x = Ok (mset m a (mkNode (flink n) x (val n))).
  Proof. intros. unfold set_blink. rewrite (get_ok m a n); auto. Qed.
  Lemma set_val_ok m a x n : a <> 0%nat -> m a = Some n ->
    set_val m a x = Ok (mset m a (mkNode (flink n) (blink n) x)).
  Proof. intros. unfold set_val. rewrite (get_ok m a n); auto. Qed.
  Definition mdel m (a : nat) : mem A := fun k => if Nat.eqb k a then None else m k.
  Lemma free_ok m a n : a <> 0%nat -> m a = Some n -> free m a = Ok (mdel m a).
  Proof. intros. unfold free. rewrite (get_ok m a n); auto. Qed.
  Lemma mdel_eq m a : mdel m a a = None.
  Proof. unfold mdel. rewrite Nat.eqb_refl. auto. Qed.
  Lemma mdel_neq m a k : k <> a -> mdel m a k = m k.
  Proof. intros. unfold mdel. rewrite (proj2 (Nat.eqb_neq k a)); auto. Qed.

  (* ---- segments ---- *)
  Lemma sseg_frame m m' addrs : forall vals n, (forall a, In a addrs -> m' a = m a) ->
    sseg m addrs vals n -> sseg m' addrs vals n.
  Proof.
    induction addrs as [|a as' IH]; intros [|v vs] n H S; cbn in *; auto.
    destruct S as (H0 & (b & Hb) & S). split; auto. split; [exists b; rewrite H; auto|]. apply IH; auto.
  Qed.
  Lemma dseg_frame m m' addrs : forall vals p n, (forall a, In a addrs -> m' a = m a) ->
    dseg m p addrs vals n -> dseg m' p addrs vals n.
  Proof.
    induction addrs as [|a as' IH]; intros [|v vs] p n H S; cbn in *; auto.
    destruct S as (H0 & Hb & S). split; auto. split; [rewrite H; auto|]. apply IH; auto.
  Qed.
  Lemma sseg_len m addrs : forall vals n, sseg m addrs vals n -> length addrs = length vals.
  Proof. induction addrs as [|a as' IH]; intros [|v vs] n S; cbn in *; try tauto. f_equal. eapply IH. apply S. Qed.
  Lemma dseg_len m addrs : forall vals p n, dseg m p addrs vals n -> length addrs = length vals.
  Proof. induction addrs as [|a as' IH]; intros [|v vs] p n S; cbn in *; try tauto. f_equal. eapply IH. apply S. Qed.
  Lemma sseg_nz m addrs : forall vals n, sseg m addrs vals n -> forall a, In a addrs -> a <> 0%nat /\ exists x, m a = Some x.
  Proof.
    induction addrs as [|a as' IH]; intros [|v vs] n S x Hx; cbn in *; try tauto.
    destruct S as (H0 & (b & Hb) & S). destruct Hx as [<-|Hx]; [split; eauto|eauto].
  Qed.
  Lemma dseg_nz m addrs : forall vals p n, dseg m p addrs vals n -> forall a, In a addrs -> a <> 0%nat /\ exists x, m a = Some x.
  Proof.
    induction addrs as [|a as' IH]; intros [|v vs] p n S x Hx; cbn in *; try tauto.
    destruct S as (H0 & Hb & S). destruct Hx as [<-|Hx]; [split; eauto|eauto].
  Qed.

  Lemma hd_app_n (n : nat) l1 l2 : hd n (l1 ++ l2) = hd (hd n l2) l1.
  Proof. destruct l1; auto. Qed.
  Lemma last_cons_default (a p : nat) l : last (a :: l) p = last l a.
  Proof. revert a p. induction l as [|x l IH]; intros a p; [reflexivity|]. transitivity (last (x :: l) p); [reflexivity|]. rewrite IH. symmetry. apply IH. Qed.

  Lemma sseg_app m as1 : forall as2 vs1 vs2 n, length as1 = length vs1 ->
    (sseg m (as1 ++ as2) (vs1 ++ vs2) n <-> sseg m as1 vs1 (hd n as2) /\ sseg m as2 vs2 n).
  Proof.
    induction as1 as [|a as1 IH]; intros as2 [|v vs1] vs2 n H; try discriminate; cbn [app].
    - cbn. tauto.
    - cbn [sseg]. rewrite IH by (cbn in H; lia). rewrite hd_app_n. tauto.
  Qed.
  Lemma dseg_app m as1 : forall as2 vs1 vs2 p n, length as1 = length vs1 ->
    (dseg m p (as1 ++ as2) (vs1 ++ vs2) n <-> dseg m p as1 vs1 (hd n as2) /\ dseg m (last as1 p) as2 vs2 n).
  Proof.
    induction as1 as [|a as1 IH]; intros as2 [|v vs1] vs2 p n H; try discriminate; cbn [app].
    - cbn. tauto.
    - cbn [dseg]. rewrite IH by (cbn in H; lia). rewrite hd_app_n, last_cons_default. tauto.
  Qed.

  (** change of the boundary links *)
  Lemma sseg_set_last m as1 a vs1 v n : forall n', sseg m (as1 ++ [a]) (vs1 ++ [v]) n -> NoDup (as1 ++ [a]) ->
    length as1 = length vs1 ->
    exists m', set_flink m a n' = Ok m' /\ sseg m' (as1 ++ [a]) (vs1 ++ [v]) n' /\ same_outside m m' [a].
  Proof.
    intros n' S N L. rewrite sseg_app in S by auto. destruct S as (S1 & H0 & (b & Hb) & _).
    eexists. split; [eapply set_flink_ok; eauto|]. split.
    - rewrite sseg_app by auto. split.
      + apply sseg_frame with m; auto. intros x Hx. apply mset_neq. intros ->.
        apply NoDup_remove_2 in N. rewrite app_nil_r in N. auto.
      + cbn. split; auto. split; auto. exists b. apply mset_eq.
    - intros x Hx. apply mset_neq. intros ->. apply Hx. left; auto.
  Qed.

  Lemma dseg_set_last m p as1 a vs1 v n : forall n', dseg m p (as1 ++ [a]) (vs1 ++ [v]) n -> NoDup (as1 ++ [a]) ->
    length as1 = length vs1 ->
    exists m', set_flink m a n' = Ok m' /\ dseg m' p (as1 ++ [a]) (vs1 ++ [v]) n' /\ same_outside m m' [a].
  Proof.
    intros n' S N L. rewrite dseg_app in S by auto. destruct S as (S1 & H0 & Hb & _).
    eexists. split; [eapply set_flink_ok; eauto|]. split.
    - rewrite dseg_app by auto. split.
      + apply dseg_frame with m; auto. intros x Hx. apply mset_neq. intros ->.
        apply NoDup_remove_2 in N. rewrite app_nil_r in N. auto.
      + cbn. split; auto. split; auto. apply mset_eq.
    - intros x Hx. apply mset_neq. intros ->. apply Hx. left; auto.
  Qed.

  Lemma dseg_set_first m p a as1 v vs1 n : forall q, dseg m p (a :: as1) (v :: vs1) n -> NoDup (a :: as1) ->
    exists m', set_blink m a q = Ok m' /\ dseg m' q (a :: as1) (v :: vs1) n /\ same_outside m m' [a].
  Proof.
    intros q (H0 & Hb & S) N. inversion N; subst.
    eexists. split; [eapply set_blink_ok; eauto|]. split.
    - cbn [dseg]. split; auto. split; [apply mset_eq|].
      apply dseg_frame with m; auto. intros x Hx. apply mset_neq. intros ->. auto.
    - intros x Hx. apply mset_neq. intros ->. apply Hx. left; auto.
  Qed.

  (** the "if not NULL" variants *)
  Lemma dseg_cond_first m p as1 vs1 n : forall q, dseg m p as1 vs1 n -> NoDup as1 -> n = 0%nat ->
    exists m', (if negb (Nat.eqb (hd 0%nat as1) 0) then set_blink m (hd 0%nat as1) q else Ok m) = Ok m' /\
      dseg m' q as1 vs1 n /\ same_outside m m' as1.
  Proof.
    intros q S N ->. destruct as1 as [|a as1]; destruct vs1 as [|v vs1]; try (destruct S; fail).
    - cbn. exists m. split; auto. split; auto. intros x _. auto.
    - cbn [hd]. assert (a <> 0%nat) by apply S. rewrite (proj2 (Nat.eqb_neq a 0)) by auto. cbn [negb].
      destruct (dseg_set_first m p a as1 v vs1 0 q S N) as (m' & E & S' & F). exists m'. split; auto. split; auto.
      intros x Hx. apply F. intros [->|[]]. apply Hx. left; auto.
  Qed.

  Lemma exists_last' {B} (l : list B) : l = [] \/ exists l' x, l = l' ++ [x].
  Proof. destruct l as [|a l]; auto. right. destruct (exists_last (l := a :: l)) as (l' & x & ->); [discriminate|eauto]. Qed.
  Lemma last_snoc {B} (l : list B) x d : last (l ++ [x]) d = x.
  Proof. apply last_last. Qed.

  Lemma dseg_cond_last m as1 vs1 n : forall n', dseg m 0 as1 vs1 n -> NoDup as1 ->
    exists m', (if negb (Nat.eqb (last as1 0%nat) 0) then set_flink m (last as1 0%nat) n' else Ok m) = Ok m' /\
      dseg m' 0 as1 vs1 n' /\ same_outside m m' as1.
  Proof.
    intros n' S N. destruct (exists_last' as1) as [->|(l & a & ->)].
    - destruct vs1; [|destruct S]. cbn. exists m. split; auto. split; auto. intros x _; auto.
    - destruct (exists_last' vs1) as [->|(vl & v & ->)].
      { exfalso. apply dseg_len in S. rewrite app_length in S. cbn in S. lia. }
      assert (length l = length vl) by (apply dseg_len in S; rewrite !app_length in S; cbn in S; lia).
      rewrite last_snoc. assert (a <> 0%nat) by (eapply (dseg_nz _ _ _ _ _ S); apply in_or_app; right; left; auto).
      rewrite (proj2 (Nat.eqb_neq a 0)) by auto. cbn [negb].
      destruct (dseg_set_last m 0 l a vl v n n' S N H) as (m' & E & S' & F). exists m'. split; auto. split; auto.
      intros x Hx. apply F. intros [->|[]]. apply Hx. apply in_or_app; right; left; auto.
  Qed.

  (* ---- sizes ---- *)
  Lemma inc_u32 n : inc (u32 (Z.of_nat n)) = u32 (Z.of_nat (S n)).
  Proof. unfold inc, u32. rewrite Zplus_mod_idemp_l. f_equal. lia. Qed.
  Lemma dec_u32 n : dec (u32 (Z.of_nat (S n))) = u32 (Z.of_nat n).
  Proof. unfold dec, u32. rewrite Zminus_mod_idemp_l. f_equal. lia. Qed.

  (* ================= SLL ================= *)
  Lemma sll_append_ok m h addrs vals a x : sll_holds m h addrs vals -> is_fresh m a ->
    exists m' h', sll_append m h a x = Ok (m', h') /\ sll_holds m' h' (addrs ++ [a]) (vals ++ [x]) /\
      same_outside m m' (addrs ++ [a]).
  Proof.
    intros (S & N & (Hf & Hl & Hs)) (Ha & Hn).
    assert (Na : ~ In a addrs) by (intros Hi; destruct (sseg_nz _ _ _ _ S a Hi) as (_ & y & Hy); congruence).
    assert (NN : NoDup (addrs ++ [a])).
    { apply (Permutation_NoDup (Permutation_cons_append addrs a)). constructor; auto. }
    assert (S1 : sseg (mset m a (mkNode 0 0 x)) addrs vals 0).
    { apply sseg_frame with m; auto. intros b Hb. apply mset_neq. congruence. }
    unfold sll_append. rewrite Hf. destruct (exists_last' addrs) as [->|(l & b & ->)].
    - destruct vals; [|destruct S]. cbn. do 2 eexists. split; [reflexivity|]. split.
      + split; [|split; auto].
        * cbn. split; auto. split; auto. exists 0%nat. apply mset_eq.
        * split; [reflexivity|]. split; [reflexivity|]. rewrite Hs. apply inc_u32.
      + intros k Hk. apply mset_neq. intros ->. apply Hk. left; auto.
    - destruct (exists_last' vals) as [->|(vl & v & ->)].
      { exfalso. apply sseg_len in S. rewrite app_length in S. cbn in S. lia. }
      assert (Ll : length l = length vl) by (apply sseg_len in S; rewrite !app_length in S; cbn in S; lia).
      assert (Hb : b <> 0%nat) by (eapply (sseg_nz _ _ _ _ S); apply in_or_app; right; left; auto).
      assert (hd 0%nat (l ++ [b]) <> 0%nat).
      { destruct l; cbn [app hd]; auto. eapply (sseg_nz _ _ _ _ S); left; auto. }
      rewrite (proj2 (Nat.eqb_neq _ 0)) by auto. rewrite Hl, last_snoc.
      destruct (sseg_set_last _ l b vl v 0 a S1 N Ll) as (m2 & E & S2 & F).
      rewrite E. cbn [obind]. do 2 eexists. split; [reflexivity|]. split.
      + split; [|split; auto].
        * rewrite sseg_app by (rewrite !app_length; cbn; lia). split; auto.
          cbn. split; auto. split; auto. exists 0%nat. rewrite F; [apply mset_eq|].
          intros [->|[]]. apply Na. apply in_or_app; right; left; auto.
        * split; [cbn; destruct l; auto|]. split; [cbn; rewrite last_snoc; auto|].
          cbn [size]. rewrite Hs. rewrite (app_length _ [x]). cbn [length]. rewrite Nat.add_1_r. apply inc_u32.
      + intros k Hk. rewrite F.
        * apply mset_neq. intros ->. apply Hk. apply in_or_app; right; left; auto.
        * intros [->|[]]. apply Hk. apply in_or_app; left. apply in_or_app; right; left; auto.
  Qed.

  Lemma sll_prepend_ok m h addrs vals a x : sll_holds m h addrs vals -> is_fresh m a ->
    exists m' h', sll_prepend m h a x = Ok (m', h') /\ sll_holds m' h' (a :: addrs) (x :: vals) /\
      same_outside m m' [a].
  Proof.
    intros (S & N & (Hf & Hl & Hs)) (Ha & Hn).
    assert (Na : ~ In a addrs) by (intros Hi; destruct (sseg_nz _ _ _ _ S a Hi) as (_ & y & Hy); congruence).
    unfold sll_prepend. do 2 eexists. split; [reflexivity|]. split.
    - split; [|split; [constructor; auto|]].
      + cbn [sseg]. split; auto. split; [exists 0%nat; rewrite mset_eq, Hf; reflexivity|].
        apply sseg_frame with m; auto. intros b Hb. apply mset_neq. congruence.
      + split; [reflexivity|]. split.
        * cbn [last_]. rewrite Hl. destruct (exists_last' addrs) as [->|(l & b & ->)]; [reflexivity|].
          rewrite last_snoc. assert (Hb : b <> 0%nat) by (eapply (sseg_nz _ _ _ _ S); apply in_or_app; right; left; auto).
          rewrite (proj2 (Nat.eqb_neq b 0)) by auto. rewrite (app_comm_cons l [b] a), last_snoc. auto.
        * cbn [size]. rewrite Hs. apply inc_u32.
    - intros k Hk. apply mset_neq. intros ->. apply Hk. left; auto.
  Qed.

  Lemma sll_insert_ok m h as1 b as2 vs1 v vs2 a x :
    sll_holds m h (as1 ++ b :: as2) (vs1 ++ v :: vs2) -> length as1 = length vs1 -> is_fresh m a ->
    exists m' h', sll_insert m h a x b = Ok (m', h') /\
      sll_holds m' h' (as1 ++ b :: a :: as2) (vs1 ++ v :: x :: vs2) /\ same_outside m m' [a; b].
  Proof.
    intros (S & N & (Hf & Hl & Hs)) L (Ha & Hn).
    assert (Na : ~ In a (as1 ++ b :: as2)) by (intros Hi; destruct (sseg_nz _ _ _ _ S a Hi) as (_ & y & Hy); congruence).
    assert (Nb1 : ~ In b (as1 ++ as2)) by (apply NoDup_remove_2; auto).
    rewrite sseg_app in S by auto. destruct S as (S1 & Hb0 & (bb & Hb) & S2).
    unfold sll_insert. rewrite (get_ok m b _ Hb0 Hb). cbn [obind flink].
    assert (Hab : a <> b) by (intros ->; apply Na; apply in_or_app; right; left; auto).
    erewrite set_flink_ok; [|auto|rewrite mset_neq by auto; exact Hb]. cbn [obind].
    do 2 eexists. split; [reflexivity|]. split.
    - split; [|split].
      + rewrite sseg_app by auto. split; [|split; [|split; [|split; [|split]]]]; auto.
        * cbn [hd]. apply sseg_frame with m; auto. intros k Hk.
          rewrite !mset_neq; auto; intros ->; [apply Na|apply Nb1]; apply in_or_app; left; auto.
        * exists bb. rewrite mset_eq. reflexivity.
        * exists 0%nat. rewrite mset_neq, mset_eq by auto. reflexivity.
        * apply sseg_frame with m; auto. intros k Hk.
          rewrite !mset_neq; auto; intros ->; [apply Na; apply in_or_app; right; right; auto|apply Nb1; apply in_or_app; auto].
      + apply (Permutation_NoDup (l := a :: (as1 ++ b :: as2))); [|constructor; auto].
        change (b :: a :: as2) with ([b] ++ a :: as2). change (b :: as2) with ([b] ++ as2).
        rewrite !app_assoc. apply Permutation_middle.
      + split; [|split].
        * cbn [first]. rewrite Hf. destruct as1; reflexivity.
        * cbn [last_]. rewrite Hl. destruct (exists_last' as2) as [->|(l & c & ->)].
          -- change [b; a] with ([b] ++ [a]). rewrite app_assoc, !last_snoc, Nat.eqb_refl. auto.
          -- assert (b <> c). { intros ->. apply Nb1. rewrite app_assoc. apply in_or_app; right; left; auto. }
             rewrite !app_comm_cons, !app_assoc, !last_snoc. rewrite (proj2 (Nat.eqb_neq b c)); auto.
        * cbn [size]. rewrite Hs. rewrite !app_length. cbn [length]. rewrite inc_u32. do 2 f_equal. lia.
    - intros k Hk. rewrite !mset_neq; auto; intros ->; apply Hk; cbn; auto.
  Qed.

  (** deleting an inner node *)
  Lemma sll_delete_loop_ok m h fs : forall fuel t as1 c as2 fv vs1 v vs2,
    sseg m (fs ++ t :: as1 ++ c :: as2) (fv ++ vs1 ++ v :: vs2) 0 ->
    NoDup (fs ++ t :: as1 ++ c :: as2) ->
    length fs = length fv -> length vs1 = S (length as1) ->
    last_ h = last (fs ++ t :: as1 ++ c :: as2) 0%nat ->
    (length as1 < fuel)%nat ->
    exists m' h', sll_delete_loop fuel m h c t t = Ok (m', h') /\
      sseg m' (fs ++ t :: as1 ++ as2) (fv ++ vs1 ++ vs2) 0 /\
      h' = mkHdr (dec (size h)) (first h) (last (fs ++ t :: as1 ++ as2) 0%nat) /\
      same_outside m m' (fs ++ t :: as1 ++ c :: as2) /\ m' c = None.
  Proof.
    intros fuel. revert fs. induction fuel as [|fuel IH]; intros fs t as1 c as2 fv vs1 v vs2 S N L1 L2 Hl Hf; [lia|].
    destruct vs1 as [|w vs1]; [discriminate|]. cbn in L2.
    pose proof S as S0. rewrite sseg_app in S by auto. destruct S as (Sf & Ht0 & (tb & Ht) & Sr).
    cbn [sll_delete_loop]. rewrite (proj2 (Nat.eqb_neq t 0)) by auto. rewrite (get_ok _ _ _ Ht0 Ht). cbn [obind flink].
    destruct as1 as [|a1 as1].
    - destruct vs1; [|discriminate]. cbn [app hd] in *. rewrite Nat.eqb_refl.
      destruct Sr as (Hc0 & (cb & Hc) & Sr).
      assert (Htc : t <> c).
      { intros ->. apply NoDup_app_r in N. inversion N. apply H1. left; auto. }
      destruct (Nat.eqb_spec (last_ h) c) as [El|El].
      + (* last element *)
        assert (as2 = []).
        { destruct (exists_last' as2) as [->|(l & d & ->)]; auto. exfalso.
          rewrite Hl in El. rewrite !app_comm_cons, app_assoc, last_snoc in El. subst d.
          apply NoDup_app_r in N. cbn in N. inversion N; subst. inversion H2; subst. apply H3. apply in_or_app; right; left; auto. }
        subst as2. destruct vs2; [|destruct Sr].
        erewrite set_flink_ok by eauto. cbn [obind blink val].
        erewrite free_ok; [|auto|rewrite mset_neq by auto; exact Hc]. cbn [obind].
        do 2 eexists. split; [reflexivity|]. split; [|split; [|split]].
        * rewrite sseg_app by auto. cbn [hd]. split; [|split; [|split]]; auto.
          -- apply sseg_frame with m; auto. intros k Hk. rewrite mdel_neq, mset_neq; auto.
             ++ intros ->. apply NoDup_remove_2 in N. apply N. apply in_or_app; auto.
             ++ intros ->. change (fs ++ [t; c]) with (fs ++ [t] ++ [c]) in N. rewrite app_assoc in N. apply NoDup_remove_2 in N. rewrite app_nil_r in N. apply N. apply in_or_app; auto.
          -- exists tb. rewrite mdel_neq, mset_eq by auto. reflexivity.
        * f_equal. rewrite last_snoc. auto.
        * intros k Hk. rewrite mdel_neq, mset_neq; auto; intros ->; apply Hk; apply in_or_app; right; cbn; auto.
        * apply mdel_eq.
      + rewrite (get_ok _ _ _ Hc0 Hc). cbn [obind flink].
        erewrite set_flink_ok by eauto. cbn [obind blink val].
        erewrite free_ok; [|auto|rewrite mset_neq by auto; exact Hc]. cbn [obind].
        assert (as2 <> []).
        { intros ->. apply El. rewrite Hl. change (fs ++ [t; c]) with (fs ++ [t] ++ [c]). rewrite app_assoc. apply last_snoc. }
        do 2 eexists. split; [reflexivity|]. split; [|split; [|split]].
        * rewrite sseg_app by auto. split; [|split; [|split]]; auto.
          -- cbn [hd]. apply sseg_frame with m; auto. intros k Hk. rewrite mdel_neq, mset_neq; auto.
             ++ intros ->. apply NoDup_remove_2 in N. apply N. apply in_or_app; auto.
             ++ intros ->. change (fs ++ t :: c :: as2) with (fs ++ [t] ++ c :: as2) in N. rewrite app_assoc in N. apply NoDup_remove_2 in N. apply N. rewrite <- app_assoc. apply in_or_app; auto.
          -- exists tb. rewrite mdel_neq, mset_eq by auto. reflexivity.
          -- apply sseg_frame with m; auto. apply NoDup_app_r in N. inversion N; subst. inversion H3; subst.
             intros k Hk. rewrite mdel_neq, mset_neq; auto; intros ->; [apply H2; right; auto|auto].
        * f_equal. rewrite Hl. destruct (exists_last' as2) as [->|(l & d & ->)]; [congruence|].
          cbn [app]. rewrite !app_comm_cons, !app_assoc, !last_snoc. auto.
        * intros k Hk. rewrite mdel_neq, mset_neq; auto; intros ->; apply Hk; apply in_or_app; right; cbn; auto.
        * apply mdel_eq.
    - destruct vs1 as [|w1 vs1]; [discriminate|]. cbn [app hd] in *. cbn in L2.
      assert (a1 <> c).
      { intros ->. apply NoDup_app_r in N. inversion N; subst. inversion H2; subst. apply H3. apply in_or_app; right; left; auto. }
      rewrite (proj2 (Nat.eqb_neq a1 c)) by auto. cbn [obind].
      replace (fs ++ t :: a1 :: as1 ++ c :: as2) with ((fs ++ [t]) ++ a1 :: as1 ++ c :: as2) in * by (rewrite <- app_assoc; reflexivity).
      replace (fv ++ w :: w1 :: vs1 ++ v :: vs2) with ((fv ++ [w]) ++ (w1 :: vs1) ++ v :: vs2) in * by (rewrite <- app_assoc; reflexivity).
      destruct (IH (fs ++ [t]) a1 as1 c as2 (fv ++ [w]) (w1 :: vs1) v vs2) as (m' & h' & E & S' & H' & F & Fc); auto.
      + rewrite !app_length; cbn; lia.
      + cbn in *; lia.
      + exists m', h'. split; auto.
        replace (fs ++ t :: a1 :: as1 ++ as2) with ((fs ++ [t]) ++ a1 :: as1 ++ as2) by (rewrite <- app_assoc; reflexivity).
        replace (fv ++ w :: w1 :: vs1 ++ vs2) with ((fv ++ [w]) ++ (w1 :: vs1) ++ vs2) by (rewrite <- app_assoc; reflexivity).
        auto.
  Qed.

  Lemma sll_delete_ok m h as1 c as2 vs1 v vs2 fuel :
    sll_holds m h (as1 ++ c :: as2) (vs1 ++ v :: vs2) -> length as1 = length vs1 ->
    (length as1 < fuel)%nat ->
    exists m' h', sll_delete fuel m h c = Ok (m', h') /\ sll_holds m' h' (as1 ++ as2) (vs1 ++ vs2) /\
      same_outside m m' (as1 ++ c :: as2) /\ m' c = None.
  Proof.
    intros (S & N & (Hf & Hl & Hs)) L Hfu. unfold sll_delete.
    assert (NN : NoDup (as1 ++ as2)) by (eapply NoDup_remove_1; eauto).
    destruct as1 as [|t as1].
    - destruct vs1; [|discriminate]. cbn [app hd] in *. rewrite Hf, Nat.eqb_refl.
      destruct S as (Hc0 & (cb & Hc) & S). destruct (proj1 (NoDup_cons_iff _ _) N) as (H1 & H2).
      destruct (exists_last' as2) as [->|(l & d & ->)].
      + destruct vs2; [|destruct S]. rewrite Hl. cbn [last]. rewrite Nat.eqb_refl.
        erewrite free_ok by eauto. cbn [obind]. do 2 eexists. split; [reflexivity|]. split; [|split].
        * split; [exact I|]. split; auto. split; [|split]; reflexivity.
        * intros k Hk. apply mdel_neq. intros ->. apply Hk; left; auto.
        * apply mdel_eq.
      + assert (last_ h <> c).
        { rewrite Hl. rewrite app_comm_cons, last_snoc. intros ->. apply H1. apply in_or_app; right; left; auto. }
        rewrite (proj2 (Nat.eqb_neq _ c)) by auto. rewrite (get_ok _ _ _ Hc0 Hc). cbn [obind flink].
        erewrite free_ok by eauto. cbn [obind]. do 2 eexists. split; [reflexivity|]. split; [|split].
        * split; [|split; auto].
          -- apply sseg_frame with m; auto. intros k Hk. apply mdel_neq. intros ->; auto.
          -- split; [reflexivity|]. split.
             ++ cbn [last_]. rewrite Hl. rewrite app_comm_cons, !last_snoc. auto.
             ++ cbn [size]. rewrite Hs. cbn [length]. apply dec_u32.
        * intros k Hk. apply mdel_neq. intros ->. apply Hk; left; auto.
        * apply mdel_eq.
    - cbn [app hd] in *. rewrite Hf.
      assert (t <> c). { intros ->. inversion N; subst. apply H1. apply in_or_app; right; left; auto. }
      rewrite (proj2 (Nat.eqb_neq t c)) by auto.
      destruct (sll_delete_loop_ok m h [] fuel t as1 c as2 [] vs1 v vs2) as (m' & h' & E & S' & -> & F & Fc); auto.
      { cbn in Hfu. lia. }
      rewrite E. do 2 eexists. split; [reflexivity|]. split; [|split; auto].
      split; auto. split; auto. split; [cbn; auto|]. split; [reflexivity|].
      cbn [size]. rewrite Hs. rewrite !app_length. cbn [length].
      replace (length vs1 + Datatypes.S (length vs2))%nat with (Datatypes.S (length vs1 + length vs2)) by lia. apply dec_u32.
  Qed.

  Lemma sll_head_ok m h addrs vals fuel : sll_holds m h addrs vals -> (0 < fuel)%nat ->
    exists m' h', sll_head fuel m h = Ok (hd_error vals, m', h') /\ sll_holds m' h' (tl addrs) (tl vals) /\
      same_outside m m' addrs.
  Proof.
    intros H Hfu. pose proof H as (S & N & (Hf & Hl & Hs)). unfold sll_head. rewrite Hf.
    destruct addrs as [|a addrs], vals as [|v vals]; try (destruct S; fail).
    - cbn. do 2 eexists. split; [reflexivity|]. split; auto. intros k _; auto.
    - cbn [hd]. pose proof S as (Ha & (b & Hb) & _). rewrite (proj2 (Nat.eqb_neq a 0)) by auto.
      rewrite (get_ok _ _ _ Ha Hb). cbn [obind].
      destruct (sll_delete_ok m h [] a addrs [] v vals fuel) as (m' & h' & E & H' & F & _); auto.
      rewrite E. cbn [obind]. do 2 eexists. split; [reflexivity|]. auto.
  Qed.

  Lemma sll_tail_ok m h addrs vals fuel : sll_holds m h addrs vals -> (length vals < fuel)%nat ->
    exists m' h', sll_tail fuel m h = Ok (hd_error (rev vals), m', h') /\
      sll_holds m' h' (removelast addrs) (removelast vals) /\ same_outside m m' addrs.
  Proof.
    intros H Hfu. pose proof H as (S & N & (Hf & Hl & Hs)). unfold sll_tail. rewrite Hl.
    destruct (exists_last' addrs) as [->|(l & a & ->)].
    - destruct vals; [|destruct S]. cbn. do 2 eexists. split; [reflexivity|]. split; auto. intros k _; auto.
    - destruct (exists_last' vals) as [->|(vl & v & ->)].
      { exfalso. apply sseg_len in S. rewrite app_length in S. cbn in S. lia. }
      assert (Ll : length l = length vl) by (apply sseg_len in S; rewrite !app_length in S; cbn in S; lia).
      rewrite last_snoc. rewrite sseg_app in S by auto. destruct S as (_ & Ha & (b & Hb) & _).
      rewrite (proj2 (Nat.eqb_neq a 0)) by auto. rewrite (get_ok _ _ _ Ha Hb). cbn [obind val].
      destruct (sll_delete_ok m h l a [] vl v [] fuel) as (m' & h' & E & H' & F & _); auto.
      { rewrite app_length in Hfu. cbn in Hfu. lia. }
      rewrite E. cbn [obind]. rewrite rev_app_distr, !removelast_last. rewrite !app_nil_r in H'.
      do 2 eexists. split; [reflexivity|]. auto.
  Qed.

  (** splitting a list at the first hit *)
  Lemma first_hit (p : A -> bool) vals : existsb p vals = false \/
    exists v1 x v2, vals = v1 ++ x :: v2 /\ p x = true /\ existsb p v1 = false.
  Proof.
    induction vals as [|x vals IH]; auto. cbn [existsb]. destruct (p x) eqn:E.
    - right. exists [], x, vals. auto.
    - destruct IH as [IH|(v1 & y & v2 & -> & Hy & Hn)]; auto.
      right. exists (x :: v1), y, v2. cbn. rewrite E. auto.
  Qed.
  Lemma remove_first_none (p : A -> bool) vals : existsb p vals = false -> remove_first p vals = vals.
  Proof. induction vals as [|x vals IH]; cbn; auto. destruct (p x); cbn; [discriminate|]. intros H. f_equal; auto. Qed.
  Lemma remove_first_hit (p : A -> bool) v1 x v2 : existsb p v1 = false -> p x = true ->
    remove_first p (v1 ++ x :: v2) = v1 ++ v2.
  Proof. induction v1 as [|y v1 IH]; cbn; intros H1 H2; [rewrite H2; auto|]. destruct (p y); cbn in H1; [discriminate|]. f_equal; auto. Qed.

  Lemma split_addrs (addrs : list nat) (v1 : list A) x v2 : length addrs = length (v1 ++ x :: v2) ->
    exists as1 a as2, addrs = as1 ++ a :: as2 /\ length as1 = length v1 /\ length as2 = length v2.
  Proof.
    intros H. rewrite app_length in H. cbn in H.
    exists (firstn (length v1) addrs).
    destruct (skipn (length v1) addrs) as [|a as2] eqn:E.
    - apply (f_equal (@length nat)) in E. rewrite skipn_length in E. cbn in E. lia.
    - exists a, as2. rewrite <- E, firstn_skipn. split; auto. split; [apply firstn_length_le; lia|].
      apply (f_equal (@length nat)) in E. rewrite skipn_length in E. cbn in E. lia.
  Qed.

  Lemma sll_search_none m p : forall addrs vals fuel, sseg m addrs vals 0 -> NoDup addrs -> existsb p vals = false ->
    (length vals < fuel)%nat -> sll_search fuel m p (hd 0%nat addrs) = Ok 0%nat.
  Proof.
    induction addrs as [|a addrs IH]; intros [|v vals] fuel S N E Hf; try (destruct S; fail);
      (destruct fuel as [|fuel]; [cbn in Hf; lia|]).
    - reflexivity.
    - cbn [hd sll_search]. destruct S as (Ha & (b & Hb) & S). rewrite (proj2 (Nat.eqb_neq a 0)) by auto.
      rewrite (get_ok _ _ _ Ha Hb). cbn [obind val]. cbn [existsb] in E. destruct (p v); [discriminate|].
      inversion N; subst. unfold sll_next. cbn [flink].
      assert (hd 0%nat addrs <> a).
      { destruct addrs; cbn; [congruence|]. intros ->. apply H1. left; auto. }
      rewrite (proj2 (Nat.eqb_neq _ a)) by auto. apply IH with vals; auto. cbn in Hf. lia.
  Qed.
  Lemma sll_search_hit m p : forall as1 a as2 v1 x v2 fuel, sseg m (as1 ++ a :: as2) (v1 ++ x :: v2) 0 ->
    NoDup (as1 ++ a :: as2) -> length as1 = length v1 -> existsb p v1 = false -> p x = true ->
    (length v1 < fuel)%nat -> sll_search fuel m p (hd 0%nat (as1 ++ a :: as2)) = Ok a.
  Proof.
    induction as1 as [|c as1 IH]; intros a as2 [|w v1] x v2 fuel S N L E Px Hf; try discriminate;
      (destruct fuel as [|fuel]; [lia|]).
    - cbn [app hd sll_search] in *. destruct S as (Ha & (b & Hb) & S). rewrite (proj2 (Nat.eqb_neq a 0)) by auto.
      rewrite (get_ok _ _ _ Ha Hb). cbn [obind val]. rewrite Px. auto.
    - cbn [app hd sll_search] in *. destruct S as (Ha & (b & Hb) & S). rewrite (proj2 (Nat.eqb_neq c 0)) by auto.
      rewrite (get_ok _ _ _ Ha Hb). cbn [obind val]. cbn [existsb] in E. destruct (p w); [discriminate|].
      inversion N; subst. unfold sll_next. cbn [flink].
      assert (hd 0%nat (as1 ++ a :: as2) <> c).
      { intros Hx. apply H1. destruct as1; cbn in *; auto. }
      rewrite (proj2 (Nat.eqb_neq _ c)) by auto. eapply IH; eauto. cbn in Hf; lia.
  Qed.

  Lemma sll_contains_ok cmp m h addrs vals x fuel : sll_holds m h addrs vals -> (length vals < fuel)%nat ->
    sll_contains fuel cmp m h x = Ok (existsb (fun v => cmp v x =? 0) vals).
  Proof.
    intros (S & N & (Hf & Hl & Hs)) Hfu. unfold sll_contains. rewrite Hf. set (p := fun v => cmp v x =? 0).
    destruct (first_hit p vals) as [E|(v1 & y & v2 & -> & Hy & Hn)].
    - rewrite (sll_search_none m p addrs vals), E; auto.
    - destruct (split_addrs addrs v1 y v2 (sseg_len _ _ _ _ S)) as (as1 & a & as2 & -> & L1 & L2).
      rewrite (sll_search_hit m p as1 a as2 v1 y v2); auto; [|rewrite app_length in Hfu; lia].
      cbn [obind]. assert (a <> 0%nat) by (eapply (sseg_nz _ _ _ _ S); apply in_or_app; right; left; auto).
      rewrite (proj2 (Nat.eqb_neq a 0)) by auto. cbn [negb]. rewrite existsb_app. cbn [existsb]. rewrite Hy.
      rewrite Hn. reflexivity.
  Qed.

  Lemma sll_find_ok cmp m h addrs vals x d fuel : sll_holds m h addrs vals -> (length vals < fuel)%nat ->
    sll_find fuel cmp m h x d = Ok (match find (fun v => cmp v x =? 0) vals with Some v => v | None => d end).
  Proof.
    intros (S & N & (Hf & Hl & Hs)) Hfu. unfold sll_find. rewrite Hf. set (p := fun v => cmp v x =? 0).
    destruct (first_hit p vals) as [E|(v1 & y & v2 & -> & Hy & Hn)].
    - rewrite (sll_search_none m p addrs vals) by auto. cbn.
      replace (find p vals) with (@None A); auto. symmetry.
      clear -E. induction vals as [|v vals IH]; cbn in *; auto. destruct (p v); [discriminate|auto].
    - destruct (split_addrs addrs v1 y v2 (sseg_len _ _ _ _ S)) as (as1 & a & as2 & -> & L1 & L2).
      rewrite (sll_search_hit m p as1 a as2 v1 y v2); auto; [|rewrite app_length in Hfu; lia].
      cbn [obind]. rewrite sseg_app in S by auto. destruct S as (_ & Ha & (b & Hb) & _).
      rewrite (proj2 (Nat.eqb_neq a 0)) by auto. rewrite (get_ok _ _ _ Ha Hb). cbn [obind val].
      replace (find p (v1 ++ y :: v2)) with (Some y); auto. symmetry.
      clear -Hn Hy. induction v1 as [|w v1 IH]; cbn in *; [rewrite Hy; auto|]. destruct (p w); [discriminate|auto].
  Qed.

  Lemma sll_remove_ok cmp m h addrs vals x fuel : sll_holds m h addrs vals -> (length vals < fuel)%nat ->
    exists m' h' addrs', sll_remove fuel cmp m h x = Ok (m', h') /\
      sll_holds m' h' addrs' (remove_first (fun v => cmp v x =? 0) vals) /\
      incl addrs' addrs /\ same_outside m m' addrs.
  Proof.
    intros H Hfu. pose proof H as (S & N & (Hf & Hl & Hs)). unfold sll_remove. rewrite Hf. set (p := fun v => cmp v x =? 0).
    destruct (first_hit p vals) as [E|(v1 & y & v2 & -> & Hy & Hn)].
    - rewrite (sll_search_none m p addrs vals) by auto. cbn. rewrite (remove_first_none p) by auto.
      exists m, h, addrs. split; auto. split; auto. split; [intros k; auto|]. intros k _; auto.
    - destruct (split_addrs addrs v1 y v2 (sseg_len _ _ _ _ S)) as (as1 & a & as2 & -> & L1 & L2).
      rewrite (sll_search_hit m p as1 a as2 v1 y v2); auto; [|rewrite app_length in Hfu; lia]. cbn [obind].
      assert (a <> 0%nat) by (eapply (sseg_nz _ _ _ _ S); apply in_or_app; right; left; auto).
      rewrite (proj2 (Nat.eqb_neq a 0)) by auto.
      destruct (sll_delete_ok m h as1 a as2 v1 y v2 fuel H L1) as (m' & h' & E & H' & F & _).
      { rewrite app_length in Hfu. cbn in Hfu. lia. }
      rewrite E. exists m', h', (as1 ++ as2). rewrite (remove_first_hit p) by auto. split; auto. split; auto. split; auto.
      intros k Hk. apply in_app_or in Hk. apply in_or_app. destruct Hk; auto. right; right; auto.
  Qed.

  (** clone *)
  Lemma sll_clone_loop_ok : forall addrs vals fuel m ht ta tv news,
    sseg m addrs vals 0 -> NoDup addrs -> sll_holds m ht ta tv ->
    (forall a, In a addrs -> ~ In a ta) ->
    NoDup news -> (forall a, In a news -> is_fresh m a) -> length news = length vals ->
    (length vals < fuel)%nat ->
    exists m' h', sll_clone_loop fuel m (hd 0%nat addrs) ht news = Ok (m', h') /\
      sll_holds m' h' (ta ++ news) (tv ++ vals) /\ same_outside m m' (ta ++ news).
  Proof.
    induction addrs as [|a addrs IH]; intros [|v vals] fuel m ht ta tv news S N T D NN F L Hf; try (destruct S; fail);
      (destruct fuel as [|fuel]; [cbn in Hf; lia|]).
    - cbn in L. destruct news; [|discriminate]. cbn. do 2 eexists. split; [reflexivity|]. rewrite !app_nil_r. split; auto. intros k _; auto.
    - cbn [hd sll_clone_loop]. destruct S as (Ha & (b & Hb) & S). rewrite (proj2 (Nat.eqb_neq a 0)) by auto.
      rewrite (get_ok _ _ _ Ha Hb). cbn [obind val]. destruct news as [|c news]; [discriminate|].
      destruct (sll_append_ok m ht ta tv c v T (F c (or_introl eq_refl))) as (m1 & h1 & E & T1 & F1).
      rewrite E. cbn [obind].
      assert (Hkeep : forall k, In k (a :: addrs) -> m1 k = m k).
      { intros k Hk. apply F1. intros Hi. apply in_app_or in Hi. destruct Hi as [Hi|[Hi|[]]]; [eapply D; eauto|].
        subst k. assert (exists x, m c = Some x) as [x Hx].
        { destruct Hk as [->|Hk]; [eauto|eapply (sseg_nz _ _ _ _ S); auto]. }
        destruct (F c (or_introl eq_refl)). congruence. }
      assert (Hb1 : m1 a = Some (mkNode (hd 0%nat addrs) b v)) by (rewrite Hkeep by (left; auto); auto).
      rewrite (get_ok _ _ _ Ha Hb1). cbn [obind]. inversion N; subst. inversion NN; subst.
      unfold sll_next. cbn [flink].
      assert (hd 0%nat addrs <> a). { destruct addrs; cbn; [congruence|]. intros ->. apply H1. left; auto. }
      rewrite (proj2 (Nat.eqb_neq _ a)) by auto.
      destruct (IH vals fuel m1 h1 (ta ++ [c]) (tv ++ [v]) news) as (m' & h' & E' & T' & F'); auto.
      + apply sseg_frame with m; auto. intros k Hk. apply Hkeep. right; auto.
      + intros k Hk Hi. apply in_app_or in Hi. destruct Hi as [Hi|[Hi|[]]]; [eapply (D k); [right; auto|auto]|].
        subst k. destruct (sseg_nz _ _ _ _ S c Hk) as (_ & y & Hy). destruct (F c (or_introl eq_refl)). congruence.
      + intros k Hk. destruct (F k (or_intror Hk)) as [Hk0 Hkn]. split; auto. rewrite F1; auto.
        intros Hi. apply in_app_or in Hi. destruct Hi as [Hi|[Hi|[]]]; [|subst; auto].
        destruct T as (ST & _). destruct (sseg_nz _ _ _ _ ST k Hi) as (_ & y & Hy). congruence.
      + cbn in Hf; lia.
      + exists m', h'. split; auto. rewrite <- !app_assoc in T'. cbn [app] in T'. split; auto.
        intros k Hk. rewrite F'; [apply F1|]; intros Hi; apply Hk; apply in_or_app.
        * apply in_app_or in Hi. destruct Hi as [Hi|[Hi|[]]]; auto. right; left; auto.
        * rewrite <- app_assoc in Hi. apply in_app_or in Hi. destruct Hi; auto.
  Qed.

  (** merge *)
  Lemma sll_merge_loop_ok cmp : forall addrs vals fuel m hr ra rv news,
    sseg m addrs vals 0 -> NoDup addrs -> sll_holds m hr ra rv ->
    (forall a, In a addrs -> ~ In a ra) ->
    NoDup news -> (forall a, In a news -> is_fresh m a) -> (length vals <= length news)%nat ->
    (2 * length vals + length rv < fuel)%nat ->
    exists m' h' news' used, sll_merge_loop fuel cmp m (hd 0%nat addrs) hr news = Ok (m', h', news') /\
      news = used ++ news' /\ (length news - length vals <= length news')%nat /\
      sll_holds m' h' (ra ++ used) (add_missing cmp rv vals) /\ same_outside m m' (ra ++ used).
  Proof.
    induction addrs as [|a addrs IH]; intros [|v vals] fuel m hr ra rv news S N T D NN F L Hf; try (destruct S; fail);
      (destruct fuel as [|fuel]; [cbn in Hf; lia|]).
    - cbn. exists m, hr, news, []. split; auto. split; auto. split; [lia|]. rewrite app_nil_r. split; auto. intros k _; auto.
    - cbn [hd sll_merge_loop]. destruct S as (Ha & (b & Hb) & S). rewrite (proj2 (Nat.eqb_neq a 0)) by auto.
      rewrite (get_ok _ _ _ Ha Hb). cbn [obind val].
      rewrite (sll_contains_ok cmp m hr ra rv v (Datatypes.S fuel) T) by (cbn in Hf; lia). cbn [obind add_missing].
      assert (hd 0%nat addrs <> a).
      { inversion N; subst. destruct addrs; cbn; [congruence|]. intros ->. apply H1. left; auto. }
      destruct (existsb (fun w => cmp w v =? 0) rv) eqn:Ec.
      + unfold sll_next. cbn [flink]. rewrite (proj2 (Nat.eqb_neq _ a)) by auto. inversion N; subst.
        destruct (IH vals fuel m hr ra rv news) as (m' & h' & news' & used & E & En & Ln & T' & F'); auto.
        * intros k Hk. apply D. right; auto.
        * cbn in L; lia.
        * cbn in Hf; lia.
        * exists m', h', news', used. split; auto. split; auto. split; [cbn; lia|]. auto.
      + destruct news as [|c news]; [cbn in L; lia|].
        destruct (sll_append_ok m hr ra rv c v T (F c (or_introl eq_refl))) as (m1 & h1 & E & T1 & F1).
        rewrite E. cbn [obind].
        assert (Hkeep : forall k, In k (a :: addrs) -> m1 k = m k).
        { intros k Hk. apply F1. intros Hi. apply in_app_or in Hi. destruct Hi as [Hi|[Hi|[]]]; [eapply D; eauto|].
          subst k. assert (exists x, m c = Some x) as [x Hx].
          { destruct Hk as [->|Hk]; [eauto|eapply (sseg_nz _ _ _ _ S); auto]. }
          destruct (F c (or_introl eq_refl)). congruence. }
        assert (Hb1 : m1 a = Some (mkNode (hd 0%nat addrs) b v)) by (rewrite Hkeep by (left; auto); auto).
        rewrite (get_ok _ _ _ Ha Hb1). cbn [obind]. inversion N; subst. inversion NN; subst.
        unfold sll_next. cbn [flink]. rewrite (proj2 (Nat.eqb_neq _ a)) by auto.
        destruct (IH vals fuel m1 h1 (ra ++ [c]) (rv ++ [v]) news) as (m' & h' & news' & used & E' & En & Ln & T' & F'); auto.
        * apply sseg_frame with m; auto. intros k Hk. apply Hkeep. right; auto.
        * intros k Hk Hi. apply in_app_or in Hi. destruct Hi as [Hi|[Hi|[]]]; [eapply (D k); [right; auto|auto]|].
          subst k. destruct (sseg_nz _ _ _ _ S c Hk) as (_ & y & Hy). destruct (F c (or_introl eq_refl)). congruence.
        * intros k Hk. destruct (F k (or_intror Hk)) as [Hk0 Hkn]. split; auto. rewrite F1; auto.
          intros Hi. apply in_app_or in Hi. destruct Hi as [Hi|[Hi|[]]]; [|subst; auto].
          destruct T as (ST & _). destruct (sseg_nz _ _ _ _ ST k Hi) as (_ & y & Hy). congruence.
        * cbn in L; lia.
        * rewrite app_length; cbn in *; lia.
        * exists m', h', news', (c :: used). split; auto. split; [subst news; auto|]. split; [cbn in *; lia|].
          rewrite <- !app_assoc in T'. cbn [app] in T'. split; auto.
          intros k Hk. rewrite F'; [apply F1|]; intros Hi; apply Hk; apply in_or_app.
          -- apply in_app_or in Hi. destruct Hi as [Hi|[Hi|[]]]; auto. right; left; auto.
          -- rewrite <- app_assoc in Hi. apply in_app_or in Hi. destruct Hi; auto.
  Qed.

  (** clear *)
  Lemma sfree_loop_ok : forall addrs vals fuel m, sseg m addrs vals 0 -> NoDup addrs -> (length vals < fuel)%nat ->
    exists m', free_loop fuel m (hd 0%nat addrs) = Ok m' /\ (forall a, In a addrs -> m' a = None) /\ same_outside m m' addrs.
  Proof.
    induction addrs as [|a addrs IH]; intros [|v vals] fuel m S N Hf; try (destruct S; fail);
      (destruct fuel as [|fuel]; [cbn in Hf; lia|]).
    - exists m. cbn. split; auto. split; [tauto|]. intros k _; auto.
    - cbn [hd free_loop]. destruct S as (Ha & (b & Hb) & S). rewrite (proj2 (Nat.eqb_neq a 0)) by auto.
      rewrite (get_ok _ _ _ Ha Hb). cbn [obind flink]. rewrite (free_ok _ _ _ Ha Hb). cbn [obind]. inversion N; subst.
      destruct (IH vals fuel (mdel m a)) as (m' & E & Hn & F); auto.
      + apply sseg_frame with m; auto. intros k Hk. apply mdel_neq. intros ->; auto.
      + cbn in Hf; lia.
      + exists m'. split; auto. split.
        * intros k [<-|Hk]; auto. rewrite F by auto. apply mdel_eq.
        * intros k Hk. rewrite F; [apply mdel_neq|]; intros ?; apply Hk; subst; cbn; auto.
  Qed.

  (* ================= DLL / PLL ================= *)
  Lemma dseg_sseg m addrs : forall p vals n, dseg m p addrs vals n -> sseg m addrs vals n.
  Proof.
    induction addrs as [|a addrs IH]; intros p [|v vals] n S; cbn in *; auto.
    destruct S as (Ha & Hb & S). split; auto. split; eauto.
  Qed.

  Lemma dll_delete_ok m h as1 c as2 vs1 v vs2 :
    dll_holds m h (as1 ++ c :: as2) (vs1 ++ v :: vs2) -> length as1 = length vs1 ->
    exists m' h', dll_delete m h c = Ok (m', h') /\ dll_holds m' h' (as1 ++ as2) (vs1 ++ vs2) /\
      same_outside m m' (as1 ++ c :: as2) /\ m' c = None.
  Proof.
    intros (S & N & (Hf & Hl & Hs)) L.
    assert (NN : NoDup (as1 ++ as2)) by (eapply NoDup_remove_1; eauto).
    assert (Nc : ~ In c (as1 ++ as2)) by (eapply NoDup_remove_2; eauto).
    rewrite dseg_app in S by auto. destruct S as (S1 & Hc0 & Hc & S2). cbn [hd] in S1.
    unfold dll_delete. rewrite (get_ok _ _ _ Hc0 Hc). cbn [obind flink blink].
    assert (Disj : forall k, In k as1 -> ~ In k as2).
    { intros k H1 H2. clear -NN H1 H2. induction as1 as [|x as1 IH]; [destruct H1|]. cbn in NN. inversion NN; subst.
      destruct H1 as [->|H1]; [apply H3; apply in_or_app; auto|auto]. }
    destruct (dseg_cond_first m c as2 vs2 0 (last as1 0%nat) S2 (NoDup_app_r _ _ NN) eq_refl) as (m1 & E1 & S2' & F1).
    rewrite E1. cbn [obind].
    assert (S1' : dseg m1 0 as1 vs1 c). { apply (dseg_frame m); [|exact S1]. intros k Hk. apply F1. apply Disj; auto. }
    destruct (dseg_cond_last m1 as1 vs1 c (hd 0%nat as2) S1' (NoDup_app_l _ _ NN)) as (m2 & E2 & S1'' & F2).
    rewrite E2. cbn [obind].
    assert (Hc2 : m2 c = Some (mkNode (hd 0%nat as2) (last as1 0%nat) v)).
    { rewrite F2, F1; auto; intros Hi; apply Nc; apply in_or_app; auto. }
    rewrite (free_ok _ _ _ Hc0 Hc2). cbn [obind]. do 2 eexists. split; [reflexivity|]. split; [|split].
    - split; [|split; auto].
      + rewrite dseg_app by auto. split.
        * apply dseg_frame with m2; auto. intros k Hk. apply mdel_neq. intros ->. apply Nc. apply in_or_app; auto.
        * apply dseg_frame with m1; [|exact S2'].
          intros k Hk. rewrite mdel_neq; [apply F2; intros Hi; eapply Disj; eauto|]. intros ->. apply Nc. apply in_or_app; auto.
      + split; [|split].
        * cbn [first]. rewrite Hf. destruct as1 as [|t as1]; cbn [app hd].
          -- rewrite Nat.eqb_refl. reflexivity.
          -- assert (t <> c) by (intros ->; apply Nc; left; auto). rewrite (proj2 (Nat.eqb_neq t c)) by auto. auto.
        * cbn [last_]. rewrite Hl. destruct (exists_last' as2) as [->|(l & d & ->)].
          -- rewrite last_snoc, Nat.eqb_refl, app_nil_r. auto.
          -- rewrite app_comm_cons, !app_assoc, !last_snoc.
             assert (d <> c) by (intros ->; apply Nc; apply in_or_app; right; apply in_or_app; right; left; auto).
             rewrite (proj2 (Nat.eqb_neq d c)) by auto. auto.
        * cbn [size]. rewrite Hs. rewrite !app_length. cbn [length].
          replace (length vs1 + Datatypes.S (length vs2))%nat with (Datatypes.S (length vs1 + length vs2)) by lia. apply dec_u32.
    - intros k Hk. rewrite mdel_neq, F2, F1; auto; intros Hi; apply Hk; apply in_or_app; subst; cbn; auto.
    - apply mdel_eq.
  Qed.

  Lemma dll_append_ok m h addrs vals a x : dll_holds m h addrs vals -> is_fresh m a ->
    exists m' h', dll_append m h a x = Ok (m', h') /\ dll_holds m' h' (addrs ++ [a]) (vals ++ [x]) /\
      same_outside m m' (addrs ++ [a]).
  Proof.
    intros (S & N & (Hf & Hl & Hs)) (Ha & Hn).
    assert (Na : ~ In a addrs) by (intros Hi; destruct (dseg_nz _ _ _ _ _ S a Hi) as (_ & y & Hy); congruence).
    assert (NN : NoDup (addrs ++ [a])).
    { apply (Permutation_NoDup (Permutation_cons_append addrs a)). constructor; auto. }
    assert (S1 : dseg (mset m a (mkNode 0 0 x)) 0 addrs vals 0).
    { apply dseg_frame with m; auto. intros b Hb. apply mset_neq. congruence. }
    unfold dll_append. rewrite Hl.
    destruct (dseg_cond_last _ addrs vals 0 a S1 N) as (m2 & E2 & S2 & F2).
    destruct (Nat.eqb_spec (last addrs 0%nat) 0) as [El|El]; cbn [negb] in *.
    - assert (addrs = []).
      { destruct (exists_last' addrs) as [->|(l & b & ->)]; auto. rewrite last_snoc in El. subst b.
        exfalso. destruct (dseg_nz _ _ _ _ _ S 0%nat) as [? _]; [apply in_or_app; right; left; auto|congruence]. }
      subst addrs. destruct vals; [|destruct S]. do 2 eexists. split; [reflexivity|]. split.
      + split; [|split; auto].
        * cbn. split; auto. split; auto. apply mset_eq.
        * split; [reflexivity|]. split; [reflexivity|]. cbn [size]. rewrite Hs. apply inc_u32.
      + intros k Hk. apply mset_neq. intros ->. apply Hk. left; auto.
    - rewrite E2. cbn [obind].
      assert (H2a : m2 a = Some (mkNode 0 0 x)) by (rewrite F2 by auto; apply mset_eq).
      rewrite (set_blink_ok _ _ _ _ Ha H2a). cbn [obind flink val]. do 2 eexists. split; [reflexivity|]. split.
      + split; [|split; auto].
        * rewrite dseg_app by (apply dseg_len in S; auto). split.
          -- cbn [hd]. apply dseg_frame with m2; auto. intros k Hk. apply mset_neq. congruence.
          -- cbn. split; auto. split; auto. apply mset_eq.
        * split; [cbn; destruct addrs; auto; cbn in El; congruence|]. split; [cbn; rewrite last_snoc; auto|].
          cbn [size]. rewrite Hs. rewrite (app_length _ [x]). cbn [length]. rewrite Nat.add_1_r. apply inc_u32.
      + intros k Hk. rewrite mset_neq, F2, mset_neq; auto; intros Hi; apply Hk; apply in_or_app; subst; cbn; auto.
  Qed.

  Lemma dll_prepend_ok m h addrs vals a x : dll_holds m h addrs vals -> is_fresh m a ->
    exists m' h', dll_prepend m h a x = Ok (m', h') /\ dll_holds m' h' (a :: addrs) (x :: vals) /\
      same_outside m m' (a :: addrs).
  Proof.
    intros (S & N & (Hf & Hl & Hs)) (Ha & Hn).
    assert (Na : ~ In a addrs) by (intros Hi; destruct (dseg_nz _ _ _ _ _ S a Hi) as (_ & y & Hy); congruence).
    assert (S1 : dseg (mset m a (mkNode 0 0 x)) 0 addrs vals 0).
    { apply dseg_frame with m; auto. intros b Hb. apply mset_neq. congruence. }
    unfold dll_prepend. rewrite Hf.
    destruct (dseg_cond_first _ 0 addrs vals 0 a S1 N eq_refl) as (m2 & E2 & S2 & F2).
    destruct (Nat.eqb_spec (hd 0%nat addrs) 0) as [El|El]; cbn [negb] in *.
    - assert (addrs = []).
      { destruct addrs as [|b addrs]; auto. cbn in El. subst b.
        exfalso. destruct (dseg_nz _ _ _ _ _ S 0%nat) as [? _]; [left; auto|congruence]. }
      subst addrs. destruct vals; [|destruct S]. do 2 eexists. split; [reflexivity|]. split.
      + split; [|split; auto].
        * cbn. split; auto. split; auto. apply mset_eq.
        * repeat constructor; auto.
        * split; [reflexivity|]. split; [reflexivity|]. cbn [size]. rewrite Hs. apply inc_u32.
      + intros k Hk. apply mset_neq. intros ->. apply Hk. left; auto.
    - rewrite E2. cbn [obind].
      assert (H2a : m2 a = Some (mkNode 0 0 x)) by (rewrite F2 by auto; apply mset_eq).
      rewrite (set_flink_ok _ _ _ _ Ha H2a). cbn [obind blink val]. do 2 eexists. split; [reflexivity|]. split.
      + split; [|split; [constructor; auto|]].
        * cbn [dseg]. split; auto. split; [apply mset_eq|]. apply dseg_frame with m2; auto. intros k Hk. apply mset_neq. congruence.
        * split; [reflexivity|]. split.
          -- cbn [last_]. rewrite Hl. rewrite last_cons_default. destruct addrs; [cbn in El; congruence|]. rewrite !last_cons_default. auto.
          -- cbn [size]. rewrite Hs. apply inc_u32.
      + intros k Hk. rewrite mset_neq, F2, mset_neq; auto; intros Hi; apply Hk; subst; cbn; auto.
  Qed.

  Lemma dll_head_ok m h addrs vals : dll_holds m h addrs vals ->
    exists m' h', dll_head m h = Ok (hd_error vals, m', h') /\ dll_holds m' h' (tl addrs) (tl vals) /\ same_outside m m' addrs.
  Proof.
    intros (S & N & (Hf & Hl & Hs)). unfold dll_head. rewrite Hf.
    destruct addrs as [|a addrs], vals as [|v vals]; try (destruct S; fail).
    - cbn. do 2 eexists. split; [reflexivity|]. split; [repeat split; auto|]. intros k _; auto.
    - cbn [hd]. destruct S as (Ha & Hb & S). rewrite (proj2 (Nat.eqb_neq a 0)) by auto.
      rewrite (get_ok _ _ _ Ha Hb). cbn [obind flink val]. inversion N; subst.
      destruct (dseg_cond_first m a addrs vals 0 0 S H2 eq_refl) as (m1 & E1 & S1 & F1). rewrite E1. cbn [obind].
      assert (Hb1 : m1 a = Some (mkNode (hd 0%nat addrs) 0 v)) by (rewrite F1; auto).
      rewrite (free_ok _ _ _ Ha Hb1). cbn [obind]. do 2 eexists. split; [reflexivity|]. split.
      + split; [|split; auto].
        * cbn [tl]. apply dseg_frame with m1; auto. intros k Hk. apply mdel_neq. intros ->; auto.
        * split; [reflexivity|]. split.
          -- cbn [last_ tl]. rewrite Hl, last_cons_default. destruct addrs as [|c addrs]; [reflexivity|].
             cbn [hd]. assert (c <> 0%nat) by (eapply (dseg_nz _ _ _ _ _ S); left; auto).
             rewrite (proj2 (Nat.eqb_neq c 0)) by auto. rewrite !last_cons_default. auto.
          -- cbn [size tl]. rewrite Hs. apply dec_u32.
      + intros k Hk. rewrite mdel_neq, F1; auto; intros Hi; apply Hk; subst; cbn; auto.
  Qed.

  Lemma dll_tail_ok m h addrs vals : dll_holds m h addrs vals ->
    exists m' h', dll_tail m h = Ok (hd_error (rev vals), m', h') /\
      dll_holds m' h' (removelast addrs) (removelast vals) /\ same_outside m m' addrs.
  Proof.
    intros H. pose proof H as (S & N & (Hf & Hl & Hs)). unfold dll_tail. rewrite Hl.
    destruct (exists_last' addrs) as [->|(l & a & ->)].
    - destruct vals; [|destruct S]. cbn. do 2 eexists. split; [reflexivity|]. split; auto. intros k _; auto.
    - destruct (exists_last' vals) as [->|(vl & v & ->)].
      { exfalso. apply dseg_len in S. rewrite app_length in S. cbn in S. lia. }
      assert (Ll : length l = length vl) by (apply dseg_len in S; rewrite !app_length in S; cbn in S; lia).
      rewrite last_snoc. rewrite dseg_app in S by auto. destruct S as (S1 & Ha & Hb & _).
      rewrite (proj2 (Nat.eqb_neq a 0)) by auto. rewrite (get_ok _ _ _ Ha Hb). cbn [obind val blink].
      assert (Na : ~ In a l) by (apply NoDup_remove_2 in N; rewrite app_nil_r in N; auto).
      destruct (dseg_cond_last m l vl a 0 S1 (NoDup_app_l _ _ N)) as (m1 & E1 & S1' & F1). rewrite E1. cbn [obind].
      assert (Hb1 : m1 a = Some (mkNode 0 (last l 0%nat) v)) by (rewrite F1; auto).
      rewrite (free_ok _ _ _ Ha Hb1). cbn [obind]. rewrite rev_app_distr, !removelast_last. do 2 eexists. split; [reflexivity|]. split.
      + split; [|split; [apply NoDup_app_l in N; auto|]].
        * apply dseg_frame with m1; auto. intros k Hk. apply mdel_neq. intros ->; auto.
        * split; [|split; [reflexivity|]].
          -- cbn [first]. rewrite Hf. destruct (exists_last' l) as [->|(l' & d & ->)]; [reflexivity|].
             rewrite last_snoc. assert (d <> 0%nat) by (eapply (dseg_nz _ _ _ _ _ S1); apply in_or_app; right; left; auto).
             rewrite (proj2 (Nat.eqb_neq d 0)) by auto. destruct l'; reflexivity.
          -- cbn [size]. rewrite Hs. rewrite app_length. cbn [length]. rewrite Nat.add_1_r. apply dec_u32.
      + intros k Hk. rewrite mdel_neq, F1; auto; intros Hi; apply Hk; apply in_or_app; subst; cbn; auto.
  Qed.

  Lemma dll_search_none m p : forall addrs vals fuel, sseg m addrs vals 0 -> existsb p vals = false ->
    (length vals < fuel)%nat -> dll_search fuel m p (hd 0%nat addrs) = Ok 0%nat.
  Proof.
    induction addrs as [|a addrs IH]; intros [|v vals] fuel S E Hf; try (destruct S; fail);
      (destruct fuel as [|fuel]; [cbn in Hf; lia|]).
    - reflexivity.
    - cbn [hd dll_search]. destruct S as (Ha & (b & Hb) & S). rewrite (proj2 (Nat.eqb_neq a 0)) by auto.
      rewrite (get_ok _ _ _ Ha Hb). cbn [obind val flink]. cbn [existsb] in E. destruct (p v); [discriminate|].
      apply IH with vals; auto. cbn in Hf. lia.
  Qed.
  Lemma dll_search_hit m p : forall as1 a as2 v1 x v2 fuel, sseg m (as1 ++ a :: as2) (v1 ++ x :: v2) 0 ->
    length as1 = length v1 -> existsb p v1 = false -> p x = true ->
    (length v1 < fuel)%nat -> dll_search fuel m p (hd 0%nat (as1 ++ a :: as2)) = Ok a.
  Proof.
    induction as1 as [|c as1 IH]; intros a as2 [|w v1] x v2 fuel S L E Px Hf; try discriminate;
      (destruct fuel as [|fuel]; [lia|]).
    - cbn [app hd dll_search] in *. destruct S as (Ha & (b & Hb) & S). rewrite (proj2 (Nat.eqb_neq a 0)) by auto.
      rewrite (get_ok _ _ _ Ha Hb). cbn [obind val]. rewrite Px. auto.
    - cbn [app hd dll_search] in *. destruct S as (Ha & (b & Hb) & S). rewrite (proj2 (Nat.eqb_neq c 0)) by auto.
      rewrite (get_ok _ _ _ Ha Hb). cbn [obind val flink]. cbn [existsb] in E. destruct (p w); [discriminate|].
      eapply IH; eauto. cbn in Hf; lia.
  Qed.

  Lemma dll_remove_ok p m h addrs vals fuel : dll_holds m h addrs vals -> (length vals < fuel)%nat ->
    exists m' h' addrs', dll_remove fuel p m h = Ok (m', h') /\ dll_holds m' h' addrs' (remove_first p vals) /\
      incl addrs' addrs /\ same_outside m m' addrs.
  Proof.
    intros H Hfu. pose proof H as (S & N & (Hf & Hl & Hs)). pose proof (dseg_sseg _ _ _ _ _ S) as SS.
    unfold dll_remove. rewrite Hf.
    destruct (first_hit p vals) as [E|(v1 & y & v2 & -> & Hy & Hn)].
    - rewrite (dll_search_none m p addrs vals) by auto. cbn. rewrite (remove_first_none p) by auto.
      exists m, h, addrs. split; auto. split; auto. split; [intros k; auto|]. intros k _; auto.
    - destruct (split_addrs addrs v1 y v2 (sseg_len _ _ _ _ SS)) as (as1 & a & as2 & -> & L1 & L2).
      rewrite (dll_search_hit m p as1 a as2 v1 y v2); auto; [|rewrite app_length in Hfu; lia]. cbn [obind].
      assert (a <> 0%nat) by (eapply (sseg_nz _ _ _ _ SS); apply in_or_app; right; left; auto).
      rewrite (proj2 (Nat.eqb_neq a 0)) by auto.
      destruct (dll_delete_ok m h as1 a as2 v1 y v2 H L1) as (m' & h' & E & H' & F & _).
      rewrite E. exists m', h', (as1 ++ as2). rewrite (remove_first_hit p) by auto. split; auto. split; auto. split; auto.
      intros k Hk. apply in_app_or in Hk. apply in_or_app. destruct Hk; auto. right; right; auto.
  Qed.

  Lemma dll_clear_ok m h addrs vals fuel : dll_holds m h addrs vals -> (length vals < fuel)%nat ->
    exists m' h', dll_clear fuel m h = Ok (m', h') /\ dll_holds m' h' [] (@nil A) /\
      (forall a, In a addrs -> m' a = None) /\ same_outside m m' addrs.
  Proof.
    intros (S & N & (Hf & _)) Hfu. unfold dll_clear. rewrite Hf.
    destruct (sfree_loop_ok addrs vals fuel m (dseg_sseg _ _ _ _ _ S) N Hfu) as (m' & E & Hn & F).
    rewrite E. cbn [obind]. do 2 eexists. split; [reflexivity|]. split; [|auto].
    split; [exact I|]. split; [constructor|]. repeat split.
  Qed.

  (* ---- PLL insert ---- *)
  Lemma pll_insert_loop_ok cmp dups : forall fuel m h fs as2 fv v2 a x,
    dseg m 0 (fs ++ as2) (fv ++ v2) 0 -> NoDup (fs ++ as2) -> length fs = length fv ->
    header_ok h (fs ++ as2) (fv ++ v2) -> as2 <> [] ->
    a <> 0%nat -> ~ In a (fs ++ as2) -> m a = Some (mkNode 0 0 x) -> (length as2 <= fuel)%nat ->
    exists ok m' h', pll_insert_loop fuel cmp dups m h a x (hd 0%nat as2) = Ok (ok, m', h') /\
      match ordered_insert cmp dups x v2 with
      | Some r => ok = true /\ exists addrs', Permutation addrs' (a :: fs ++ as2) /\ dll_holds m' h' addrs' (fv ++ r)
      | None => ok = false /\ h' = h /\ dll_holds m' h' (fs ++ as2) (fv ++ v2) /\ m' a = None
      end /\ same_outside m m' (a :: fs ++ as2).
  Proof.
    induction fuel as [|fuel IH]; intros m h fs as2 fv v2 a x S N L Hh Hne Ha Na Hm Hf.
    { destruct as2; [congruence|cbn in Hf; lia]. }
    destruct as2 as [|c as2]; [congruence|]. destruct v2 as [|y v2].
    { exfalso. apply dseg_len in S. rewrite app_nil_r, app_length in S. cbn in S. lia. }
    pose proof S as S0. rewrite dseg_app in S by auto. destruct S as (S1 & Hc0 & Hc & S2). cbn [hd] in *.
    cbn [pll_insert_loop]. rewrite (proj2 (Nat.eqb_neq c 0)) by auto.
    rewrite (get_ok _ _ _ Hc0 Hc). cbn [obind val blink flink ordered_insert].
    assert (Nc : ~ In c (fs ++ as2)) by (eapply NoDup_remove_2; eauto).
    assert (Hac : a <> c) by (intros ->; apply Na; apply in_or_app; right; left; auto).
    destruct (cmp y x <? 0) eqn:Er.
    - (* insert before c *)
      rewrite (set_flink_ok _ _ _ _ Ha Hm). cbn [obind blink val].
      set (m1 := mset m a (mkNode c 0 x)).
      assert (S1' : dseg m1 0 fs fv c).
      { apply dseg_frame with m; auto. intros k Hk. apply mset_neq. intros ->. apply Na. apply in_or_app; auto. }
      destruct (dseg_cond_last m1 fs fv c a S1' (NoDup_app_l _ _ N)) as (m2 & E2 & S2' & F2).
      rewrite E2. cbn [obind].
      assert (H2a : m2 a = Some (mkNode c 0 x)).
      { rewrite F2; [apply mset_eq|]. intros Hi. apply Na. apply in_or_app; auto. }
      rewrite (set_blink_ok _ _ _ _ Ha H2a). cbn [obind flink val].
      set (m3 := mset m2 a (mkNode c (last fs 0%nat) x)).
      assert (H3c : m3 c = Some (mkNode (hd 0%nat as2) (last fs 0%nat) y)).
      { unfold m3. rewrite mset_neq by auto. rewrite F2; [unfold m1; rewrite mset_neq by auto; auto|].
        intros Hi. apply Nc. apply in_or_app; auto. }
      rewrite (set_blink_ok _ _ _ _ Hc0 H3c). cbn [obind flink val].
      do 3 eexists. split; [reflexivity|]. split; [split; auto|].
      + exists (fs ++ a :: c :: as2). split; [symmetry; apply Permutation_middle|].
        split; [|split].
        * rewrite dseg_app by auto. split; [|split; [|split; [|split; [|split]]]]; auto.
          -- cbn [hd]. apply dseg_frame with m2; auto. intros k Hk. unfold m3. rewrite !mset_neq; auto; intros ->.
             ++ apply Na. apply in_or_app; auto.
             ++ apply Nc. apply in_or_app; auto.
          -- cbn [hd]. rewrite mset_neq by auto. unfold m3. rewrite mset_eq. reflexivity.
          -- rewrite mset_eq. reflexivity.
          -- apply dseg_frame with m; auto. intros k Hk. rewrite mset_neq; [|intros ->; apply Nc; apply in_or_app; auto].
             unfold m3. rewrite mset_neq; [|intros ->; apply Na; apply in_or_app; right; right; auto].
             rewrite F2; [unfold m1; rewrite mset_neq; auto; intros ->; apply Na; apply in_or_app; right; right; auto|].
             intros Hi. clear -N Hi Hk. induction fs as [|z fs IH]; [destruct Hi|]. cbn in N. inversion N; subst.
             destruct Hi as [->|Hi]; [apply H1; apply in_or_app; right; right; auto|auto].
        * apply (Permutation_NoDup (l := a :: fs ++ c :: as2)); [apply Permutation_middle|constructor; auto].
        * destruct Hh as (Hf1 & Hl1 & Hs1). split; [|split].
          -- cbn [first]. rewrite Hf1. destruct fs as [|t fs]; cbn [app hd].
             ++ rewrite Nat.eqb_refl. auto.
             ++ assert (c <> t) by (intros ->; apply Nc; left; auto). rewrite (proj2 (Nat.eqb_neq c t)); auto.
          -- cbn [last_]. rewrite Hl1. destruct (exists_last' as2) as [->|(l & d & ->)].
             ++ change [a; c] with ([a] ++ [c]). rewrite app_assoc, !last_snoc. auto.
             ++ rewrite !app_comm_cons, !app_assoc, !last_snoc. auto.
          -- cbn [size]. rewrite Hs1, inc_u32. rewrite !app_length. cbn [length]. do 2 f_equal. lia.
      + intros k Hk. assert (k <> a /\ k <> c /\ ~ In k fs) as (K1 & K2 & K3).
        { repeat split; intros Hi; apply Hk; subst; cbn; auto; right; apply in_or_app; cbn; auto. }
        rewrite mset_neq by auto. unfold m3. rewrite mset_neq, F2 by auto. unfold m1. apply mset_neq; auto.
    - destruct ((cmp y x =? 0) && negb dups) eqn:Ed.
      + rewrite (free_ok _ _ _ Ha Hm). cbn [obind]. do 3 eexists. split; [reflexivity|]. split.
        * split; auto. split; auto. split; [|apply mdel_eq]. split; [|split; auto].
          apply dseg_frame with m; auto. intros k Hk. apply mdel_neq. intros ->; auto.
        * intros k Hk. apply mdel_neq. intros ->. apply Hk; left; auto.
      + destruct (Nat.eqb_spec c (last_ h)) as [El|El].
        * assert (as2 = []).
          { destruct (exists_last' as2) as [->|(l & d & ->)]; auto. exfalso. destruct Hh as (_ & Hl1 & _).
            rewrite Hl1 in El. rewrite app_comm_cons, app_assoc, last_snoc in El. subst d.
            apply Nc. apply in_or_app; right; apply in_or_app; right; left; auto. }
          subst as2. destruct v2; [|destruct S2]. cbn [ordered_insert].
          rewrite (set_flink_ok _ _ _ _ Hc0 Hc). cbn [obind blink val].
          assert (H1a : mset m c (mkNode a (last fs 0%nat) y) a = Some (mkNode 0 0 x)) by (rewrite mset_neq by auto; auto).
          rewrite (set_blink_ok _ _ _ _ Ha H1a). cbn [obind flink val].
          do 3 eexists. split; [reflexivity|]. split; [split; auto|].
          -- exists ((fs ++ [c]) ++ [a]). split; [symmetry; apply Permutation_cons_append|].
             split; [|split].
             ++ rewrite <- app_assoc. cbn [app]. rewrite dseg_app by auto. split; [|split; [|split; [|split]]]; auto.
                ** cbn [hd]. apply dseg_frame with m; auto. intros k Hk. rewrite !mset_neq; auto; intros ->.
                   --- apply Nc. apply in_or_app; auto.
                   --- apply Na. apply in_or_app; auto.
                ** cbn [hd]. rewrite mset_neq, mset_eq by auto. reflexivity.
                ** cbn. split; auto. apply mset_eq.
             ++ apply (Permutation_NoDup (Permutation_cons_append (fs ++ [c]) a)). constructor; auto.
             ++ destruct Hh as (Hf1 & Hl1 & Hs1). split; [|split].
                ** cbn [first]. rewrite Hf1. destruct fs; auto.
                ** cbn [last_]. rewrite last_snoc. auto.
                ** cbn [size]. rewrite Hs1, inc_u32. rewrite !app_length. cbn [length]. do 2 f_equal. lia.
          -- intros k Hk. rewrite !mset_neq; auto; intros ->; apply Hk; cbn; auto. right. apply in_or_app; cbn; auto.
        * assert (as2 <> []).
          { intros ->. apply El. destruct Hh as (_ & Hl1 & _). rewrite Hl1, last_snoc. auto. }
          replace (fs ++ c :: as2) with ((fs ++ [c]) ++ as2) in * by (rewrite <- app_assoc; auto).
          replace (fv ++ y :: v2) with ((fv ++ [y]) ++ v2) in * by (rewrite <- app_assoc; auto).
          destruct (IH m h (fs ++ [c]) as2 (fv ++ [y]) v2 a x) as (ok & m' & h' & E & R & F); auto.
          -- rewrite !app_length; cbn; lia.
          -- cbn in Hf; lia.
          -- exists ok, m', h'. split; auto. split; [|exact F].
             destruct (ordered_insert cmp dups x v2) as [r|]; auto.
             destruct R as (Hok & addrs' & P & H'). split; auto. exists addrs'. split; auto.
             rewrite <- app_assoc in H'. auto.
  Qed.

  Lemma pll_insert_ok cmp dups m h addrs vals a x fuel : dll_holds m h addrs vals -> is_fresh m a ->
    (length vals <= fuel)%nat ->
    exists ok m' h', pll_insert fuel cmp dups m h a x = Ok (ok, m', h') /\
      match ordered_insert cmp dups x vals with
      | Some r => ok = true /\ exists addrs', Permutation addrs' (a :: addrs) /\ dll_holds m' h' addrs' r
      | None => ok = false /\ h' = h /\ dll_holds m' h addrs vals /\ m' a = None
      end /\ same_outside m m' (a :: addrs).
  Proof.
    intros (S & N & Hh) (Ha & Hn) Hf. unfold pll_insert. pose proof Hh as (Hf1 & Hl1 & Hs1). rewrite Hf1.
    assert (Na : ~ In a addrs) by (intros Hi; destruct (dseg_nz _ _ _ _ _ S a Hi) as (_ & y & Hy); congruence).
    destruct addrs as [|c addrs].
    - destruct vals; [|destruct S]. cbn [hd Nat.eqb ordered_insert]. do 3 eexists. split; [reflexivity|]. split; [split; auto|].
      + exists [a]. split; auto. split; [|split].
        * cbn. split; auto. split; auto. apply mset_eq.
        * repeat constructor; auto.
        * split; [reflexivity|]. split; [reflexivity|]. cbn [size]. rewrite Hs1. apply inc_u32.
      + intros k Hk. apply mset_neq. intros ->. apply Hk; left; auto.
    - cbn [hd]. assert (c <> 0%nat) by (eapply (dseg_nz _ _ _ _ _ S); left; auto). rewrite (proj2 (Nat.eqb_neq c 0)) by auto.
      destruct (pll_insert_loop_ok cmp dups fuel (mset m a (mkNode 0 0 x)) h [] (c :: addrs) [] vals a x) as (ok & m' & h' & E & R & F); auto.
      + cbn [app]. apply dseg_frame with m; auto. intros k Hk. apply mset_neq. intros ->; auto.
      + discriminate.
      + apply mset_eq.
      + apply dseg_len in S. lia.
      + cbn [app hd] in *. exists ok, m', h'. split; auto. split.
        * destruct (ordered_insert cmp dups x vals) as [r|]; auto. destruct R as (-> & -> & ? & ?). auto.
        * intros k Hk. rewrite F by auto. apply mset_neq. intros ->. apply Hk; left; auto.
  Qed.

  Lemma pll_replace_ok cmp m h addrs vals x fuel : dll_holds m h addrs vals -> (length vals < fuel)%nat ->
    exists m', pll_replace fuel cmp m h x = Ok (find (fun v => cmp v x =? 0) vals, m') /\
      (forall v1 y v2, vals = v1 ++ y :: v2 -> existsb (fun v => cmp v x =? 0) v1 = false -> cmp y x = 0 ->
         dll_holds m' h addrs (v1 ++ x :: v2)) /\
      (existsb (fun v => cmp v x =? 0) vals = false -> m' = m).
  Proof.
    intros (S & N & (Hf & Hl & Hs)) Hfu. unfold pll_replace. rewrite Hf. set (p := fun v => cmp v x =? 0).
    destruct (first_hit p vals) as [E|(v1 & y & v2 & -> & Hy & Hn)].
    - rewrite (dll_search_none m p addrs vals) by (auto; eapply dseg_sseg; eauto). cbn [obind Nat.eqb].
      exists m. split; [|split; auto].
      + do 2 f_equal. clear -E. induction vals as [|v vals IH]; cbn in *; auto. destruct (p v); [discriminate|auto].
      + intros v1 y v2 -> _ Hy. exfalso. rewrite existsb_app in E. cbn in E. unfold p in E. rewrite Hy in E. cbn in E. rewrite orb_true_r in E. discriminate.
    - pose proof (dseg_sseg _ _ _ _ _ S) as SS.
      destruct (split_addrs addrs v1 y v2 (sseg_len _ _ _ _ SS)) as (as1 & a & as2 & -> & L1 & L2).
      rewrite (dll_search_hit m p as1 a as2 v1 y v2); auto; [|rewrite app_length in Hfu; lia]. cbn [obind].
      rewrite dseg_app in S by auto. destruct S as (S1 & Ha & Hb & S2).
      rewrite (proj2 (Nat.eqb_neq a 0)) by auto. rewrite (get_ok _ _ _ Ha Hb). cbn [obind val].
      rewrite (set_val_ok _ _ _ _ Ha Hb). cbn [obind flink blink]. eexists. split; [|split].
      + do 2 f_equal. symmetry. clear -Hn Hy. induction v1 as [|w v1 IH]; cbn in *; [rewrite Hy; auto|]. destruct (p w); [discriminate|auto].
      + intros w1 z w2 Ew Hw Hz.
        assert (w1 = v1 /\ w2 = v2) as [-> ->].
        { clear -Ew Hw Hz Hn Hy. revert w1 Ew Hw. induction v1 as [|u v1 IH]; intros [|u' w1] Ew Hw; cbn in Ew.
          - injection Ew as -> ->. auto.
          - injection Ew as -> _. cbn [existsb] in Hw. rewrite Hy in Hw. discriminate.
          - injection Ew as -> _. cbn [existsb] in Hn. apply orb_false_iff in Hn. unfold p in Hn. destruct Hn as [Hn _]. rewrite Hz in Hn. discriminate.
          - injection Ew as -> Ew. cbn [existsb] in Hn, Hw. apply orb_false_iff in Hn, Hw. destruct (IH (proj2 Hn) w1 Ew (proj2 Hw)) as [-> ->]. auto. }
        assert (Nb : ~ In a (as1 ++ as2)) by (eapply NoDup_remove_2; eauto).
        split; [|split; auto].
        * rewrite dseg_app by auto. split; [|split; [|split]]; auto.
          -- apply dseg_frame with m; auto. intros k Hk. apply mset_neq. intros ->. apply Nb. apply in_or_app; auto.
          -- apply mset_eq.
          -- apply dseg_frame with m; auto. intros k Hk. apply mset_neq. intros ->. apply Nb. apply in_or_app; auto.
        * split; auto. split; auto. rewrite Hs. rewrite !app_length. cbn. auto.
      + intros E. exfalso. rewrite existsb_app in E. cbn in E. rewrite Hy in E. cbn in E. rewrite orb_true_r in E. discriminate.
  Qed.
End LP.

(* ---- ordered insertion keeps the order ---- *)
Section Ord.
  Context {A : Type}.
  Variable cmp : A -> A -> Z.
  Hypothesis C : comparator cmp.

  Lemma cmp_ge x y : cmp x y >= 0 <-> cmp y x <= 0.
  Proof. pose proof (cmp_anti cmp C x y). pose proof (cmp_anti cmp C y x). lia. Qed.
  Lemma cmp_zero_sym x y : cmp x y = 0 <-> cmp y x = 0.
  Proof. pose proof (cmp_anti cmp C x y). pose proof (cmp_anti cmp C y x). lia. Qed.
  Lemma ge_trans x y z : cmp x y >= 0 -> cmp y z >= 0 -> cmp x z >= 0.
  Proof. rewrite !cmp_ge. intros. eapply (cmp_trans cmp C); eauto. Qed.

  Lemma ordered_insert_perm dups x l r : ordered_insert cmp dups x l = Some r -> Permutation r (x :: l).
  Proof.
    revert r. induction l as [|y l IH]; intros r E; cbn in E.
    - injection E as <-. auto.
    - destruct (cmp y x <? 0); [injection E as <-; auto|].
      destruct ((cmp y x =? 0) && negb dups); [discriminate|].
      destruct (ordered_insert cmp dups x l) as [r'|]; [|discriminate]. injection E as <-.
      rewrite (IH r' eq_refl). apply perm_swap.
  Qed.

  Lemma ordered_insert_desc dups x l r : descending cmp l -> ordered_insert cmp dups x l = Some r -> descending cmp r.
  Proof.
    intros D. revert r. induction D as [|y l D IH F]; intros r E; cbn in E.
    - injection E as <-. repeat constructor.
    - destruct (Z.ltb_spec (cmp y x) 0).
      + injection E as <-. assert (cmp x y >= 0) by (apply cmp_ge; lia).
        constructor; [constructor; auto|]. constructor; auto.
        apply Forall_forall. intros z Hz. rewrite Forall_forall in F. eapply ge_trans; eauto.
      + destruct ((cmp y x =? 0) && negb dups); [discriminate|].
        destruct (ordered_insert cmp dups x l) as [r'|] eqn:Er; [|discriminate]. injection E as <-.
        constructor; [apply IH; auto|]. apply Forall_forall. intros z Hz.
        apply (Permutation_in _ (ordered_insert_perm _ _ _ _ Er)) in Hz. rewrite Forall_forall in F.
        destruct Hz as [<-|Hz]; auto. lia.
  Qed.

  Lemma ordered_insert_refuses x l : descending cmp l ->
    (ordered_insert cmp false x l = None <-> exists y, In y l /\ cmp y x = 0).
  Proof.
    induction 1 as [|y l D IH F]; cbn.
    - split; [discriminate|]. intros (y & [] & _).
    - destruct (Z.ltb_spec (cmp y x) 0).
      + split; [discriminate|]. intros (z & [<-|Hz] & Ez); [lia|]. exfalso.
        rewrite Forall_forall in F. specialize (F z Hz).
        assert (cmp y x >= 0) by (eapply ge_trans; eauto; lia). lia.
      + destruct (Z.eqb_spec (cmp y x) 0); cbn [andb negb].
        * split; auto. intros _. exists y; auto.
        * destruct (ordered_insert cmp false x l) as [r|].
          -- split; [discriminate|]. intros (z & [<-|Hz] & Ez); [congruence|].
             destruct IH as [_ IH]. discriminate IH. eauto.
          -- split; auto. intros _. destruct IH as [IH _]. destruct (IH eq_refl) as (z & Hz & Ez). exists z; auto.
  Qed.
End Ord.

(* ---- histories ---- *)
Section Hist.
  Context {A : Type}.
  Variable cmp : A -> A -> Z.

  Lemma sll_step_ok fuel (m : mem A) h addrs vals o a : sll_holds m h addrs vals -> is_fresh m a -> (length vals < fuel)%nat ->
    exists m' h' addrs', sll_do cmp fuel m h o a = Ok (snd (seq_step cmp vals o), m', h') /\
      sll_holds m' h' addrs' (fst (seq_step cmp vals o)).
  Proof.
    intros H F Hf. destruct o as [x|x| | |x|x]; cbn [sll_do seq_step fst snd].
    - destruct (sll_append_ok m h addrs vals a x H F) as (m' & h' & E & H' & _). rewrite E. cbn. eauto 6.
    - destruct (sll_prepend_ok m h addrs vals a x H F) as (m' & h' & E & H' & _). rewrite E. cbn. eauto 6.
    - destruct (sll_head_ok m h addrs vals fuel H) as (m' & h' & E & H' & _); [lia|]. rewrite E. cbn [obind]. eauto 6.
    - destruct (sll_tail_ok m h addrs vals fuel H Hf) as (m' & h' & E & H' & _). rewrite E. cbn [obind]. eauto 6.
    - destruct (sll_remove_ok cmp m h addrs vals x fuel H Hf) as (m' & h' & ad' & E & H' & _). rewrite E. cbn [obind]. eauto 6.
    - rewrite (sll_contains_ok cmp m h addrs vals x fuel H Hf). cbn [obind]. eauto 6.
  Qed.
  Lemma dll_step_ok fuel (m : mem A) h addrs vals o a : dll_holds m h addrs vals -> is_fresh m a -> (length vals < fuel)%nat ->
    exists m' h' addrs', dll_do cmp fuel m h o a = Ok (snd (seq_step cmp vals o), m', h') /\
      dll_holds m' h' addrs' (fst (seq_step cmp vals o)).
  Proof.
    intros H F Hf. destruct o as [x|x| | |x|x]; cbn [dll_do seq_step fst snd].
    - destruct (dll_append_ok m h addrs vals a x H F) as (m' & h' & E & H' & _). rewrite E. cbn. eauto 6.
    - destruct (dll_prepend_ok m h addrs vals a x H F) as (m' & h' & E & H' & _). rewrite E. cbn. eauto 6.
    - destruct (dll_head_ok m h addrs vals H) as (m' & h' & E & H' & _). rewrite E. cbn [obind]. eauto 6.
    - destruct (dll_tail_ok m h addrs vals H) as (m' & h' & E & H' & _). rewrite E. cbn [obind]. eauto 6.
    - destruct (dll_remove_ok (fun v => cmp v x =? 0) m h addrs vals fuel H Hf) as (m' & h' & ad' & E & H' & _). rewrite E. cbn [obind]. eauto 6.
    - pose proof H as (S & N & (Hf1 & _)). rewrite Hf1. set (p := fun v => cmp v x =? 0).
      assert (E : obind (dll_search fuel m p (hd 0%nat addrs)) (fun a0 => Ok (ABool (A := A) (negb (Nat.eqb a0 0)), m, h)) = Ok (ABool (existsb p vals), m, h)).
      { pose proof (dseg_sseg _ _ _ _ _ S) as SS. destruct (first_hit p vals) as [E|(v1 & y & v2 & -> & Hy & Hn)].
        - rewrite (dll_search_none m p addrs vals), E by auto. reflexivity.
        - destruct (split_addrs addrs v1 y v2 (sseg_len _ _ _ _ SS)) as (as1 & b & as2 & -> & L1 & L2).
          rewrite (dll_search_hit m p as1 b as2 v1 y v2) by (auto; rewrite app_length in Hf; lia).
          assert (b <> 0%nat) by (eapply (sseg_nz _ _ _ _ SS); apply in_or_app; right; left; auto).
          cbn [obind]. rewrite (proj2 (Nat.eqb_neq b 0)) by auto. rewrite existsb_app. cbn [existsb]. rewrite Hy, Hn. reflexivity. }
      rewrite E. eauto 6.
  Qed.

  Lemma seq_step_len (vals : list A) o : (length (fst (seq_step cmp vals o)) <= S (length vals))%nat.
  Proof.
    destruct o; cbn [seq_step fst]; auto.
    - rewrite app_length. cbn. lia.
    - destruct vals; cbn; lia.
    - destruct (exists_last' vals) as [->|(l & x & ->)]; [cbn; lia|]. rewrite removelast_last, app_length. cbn; lia.
    - induction vals as [|v vals IH]; cbn; [lia|]. destruct (_ =? 0); cbn in *; lia.
  Qed.

  Lemma run_ok (st : impl_step A) (holds : mem A -> hdr -> list nat -> list A -> Prop) fuel :
    (forall m h addrs vals o a, holds m h addrs vals -> is_fresh m a -> (length vals < fuel)%nat ->
      exists m' h' addrs', st m h o a = Ok (snd (seq_step cmp vals o), m', h') /\
        holds m' h' addrs' (fst (seq_step cmp vals o))) ->
    forall os m h addrs vals, holds m h addrs vals -> allocs_fresh st m h os ->
      (length vals + length os < fuel)%nat ->
      exists m' h' addrs', impl_run st m h os = Ok (snd (seq_run cmp vals (map fst os)), m', h') /\
        holds m' h' addrs' (fst (seq_run cmp vals (map fst os))).
  Proof.
    intros Hst. induction os as [|[o a] os IH]; intros m h addrs vals H F Hf; cbn [impl_run map seq_run fst].
    - cbn. eauto 6.
    - destruct F as (Fa & F). destruct (Hst m h addrs vals o a H Fa) as (m1 & h1 & ad1 & E & H1); [lia|].
      rewrite E in F |- *. cbn [obind]. pose proof (seq_step_len vals o) as Hl. destruct (seq_step cmp vals o) as [l1 r1]. cbn [fst snd] in *.
      destruct (IH m1 h1 ad1 l1 H1 F) as (m2 & h2 & ad2 & E2 & H2); [cbn in Hf; lia|].
      rewrite E2. destruct (seq_run cmp l1 (map fst os)) as [l2 rs]. cbn [obind fst snd] in *. eauto 6.
  Qed.
End Hist.

Section PHist.
  Context {A : Type}.
  Variable cmp : A -> A -> Z.
  Hypothesis C : comparator cmp.

  Lemma ordered_insert_place dups x l r : descending cmp l -> ordered_insert cmp dups x l = Some r ->
    exists l1 l2, l = l1 ++ l2 /\ r = l1 ++ x :: l2 /\ (forall y, In y l1 -> cmp y x >= 0) /\ (forall y, In y l2 -> cmp y x < 0).
  Proof.
    intros D. revert r. induction D as [|y l D IH F]; intros r E; cbn in E.
    - injection E as <-. exists [], []. cbn. tauto.
    - destruct (Z.ltb_spec (cmp y x) 0).
      + injection E as <-. exists [], (y :: l). split; auto. split; auto. split; [intros ? []|].
        intros z [<-|Hz]; auto. rewrite Forall_forall in F. specialize (F z Hz).
        destruct (Z_lt_ge_dec (cmp z x) 0); auto. exfalso. pose proof (ge_trans cmp C y z x F g). lia.
      + destruct ((cmp y x =? 0) && negb dups); [discriminate|].
        destruct (ordered_insert cmp dups x l) as [r'|]; [|discriminate]. injection E as <-.
        destruct (IH r' eq_refl) as (l1 & l2 & -> & -> & H1 & H2). exists (y :: l1), l2. split; auto. split; auto. split; auto.
        intros z [<-|Hz]; auto. lia.
  Qed.

  Lemma descending_sub l l' : descending cmp l -> (exists l1 l2 x, l = l1 ++ x :: l2 /\ l' = l1 ++ l2) -> descending cmp l'.
  Proof.
    intros D (l1 & l2 & x & -> & ->). induction l1 as [|y l1 IH]; cbn in *.
    - inversion D; auto.
    - inversion D; subst. constructor; [apply IH; auto|]. apply Forall_forall. intros z Hz. rewrite Forall_forall in H2. apply H2. apply in_app_or in Hz.
      apply in_or_app. destruct Hz; auto. right; right; auto.
  Qed.

  Lemma prio_step_desc l o r l' : descending cmp l -> prio_step cmp l o r l' -> descending cmp l'.
  Proof.
    intros D H. destruct o as [dups x| | |x]; cbn in H.
    - destruct (negb dups && existsb (fun y => cmp y x =? 0) l); [destruct H as (_ & ->); auto|].
      destruct H as (_ & l1 & l2 & -> & -> & H1 & H2). induction l1 as [|y l1 IH]; cbn in *.
      + constructor; auto. rewrite Forall_forall. intros z Hz. apply cmp_ge; auto. specialize (H2 z Hz). lia.
      + inversion D; subst. constructor; [apply IH; auto|]. apply Forall_forall. intros z Hz. rewrite Forall_forall in H4.
        apply in_app_or in Hz. destruct Hz as [Hz|[<-|Hz]]; [apply H4; apply in_or_app; auto|apply H1; auto|].
        apply H4; apply in_or_app; auto.
    - destruct H as (_ & ->). destruct l; auto. inversion D; auto.
    - destruct H as (_ & ->). destruct (exists_last' l) as [->|(l1 & x & ->)]; auto. rewrite removelast_last.
      apply (descending_sub (l1 ++ [x]) l1); auto. exists l1, [], x. rewrite app_nil_r. auto.
    - destruct H as (_ & ->). destruct (first_hit (fun v => cmp v x =? 0) l) as [E|(v1 & y & v2 & -> & Hy & Hn)].
      + rewrite (remove_first_none _ l) by auto. auto.
      + rewrite (remove_first_hit (fun v => cmp v x =? 0)) by auto. apply (descending_sub _ _ D). eauto 6.
  Qed.

  Lemma pll_step_ok fuel (m : mem A) h addrs vals o a : dll_holds m h addrs vals -> descending cmp vals -> is_fresh m a -> (length vals < fuel)%nat ->
    exists r m' h' addrs' vals', pll_do cmp fuel m h o a = Ok (r, m', h') /\
      dll_holds m' h' addrs' vals' /\ prio_step cmp vals o r vals' /\ (length vals' <= S (length vals))%nat.
  Proof.
    intros H D F Hf. destruct o as [dups x| | |x]; cbn [pll_do prio_step].
    - destruct (pll_insert_ok cmp dups m h addrs vals a x fuel H F) as (ok & m' & h' & E & R & _); [lia|].
      rewrite E. cbn [obind]. pose proof (ordered_insert_refuses cmp C x vals D) as Rf.
      assert (Ex : existsb (fun y => cmp y x =? 0) vals = true <-> exists y, In y vals /\ cmp y x = 0).
      { rewrite existsb_exists. split; intros (y & H1 & H2); exists y; split; auto; lia. }
      destruct (ordered_insert cmp dups x vals) as [r|] eqn:Eo.
      + destruct R as (-> & ad & P & H'). exists (ABool true), m', h', ad, r. split; auto. split; auto.
        assert (negb dups && existsb (fun y => cmp y x =? 0) vals = false).
        { destruct dups; auto. cbn. destruct (existsb _ vals); auto. exfalso.
          rewrite (proj2 Rf) in Eo by (apply Ex; auto). discriminate. }
        rewrite H0. split.
        * split; auto. eapply ordered_insert_place; eauto.
        * rewrite (Permutation_length (ordered_insert_perm cmp _ _ _ _ Eo)). auto.
      + destruct R as (-> & -> & H' & _). exists (ABool false), m', h, addrs, vals. split; auto. split; auto.
        assert (negb dups && existsb (fun y => cmp y x =? 0) vals = true).
        { destruct dups.
          - exfalso. clear -Eo. induction vals as [|y l IH]; cbn in Eo; [discriminate|]. destruct (cmp y x <? 0); [discriminate|].
            rewrite andb_false_r in Eo. destruct (ordered_insert cmp true x l); [discriminate|auto].
          - cbn. apply Ex. apply Rf. auto. }
        rewrite H0. auto.
    - destruct (dll_head_ok m h addrs vals H) as (m' & h' & E & H' & _). rewrite E. cbn [obind].
      do 5 eexists. split; [reflexivity|]. split; [eassumption|]. split; auto. destruct vals; cbn; lia.
    - destruct (dll_tail_ok m h addrs vals H) as (m' & h' & E & H' & _). rewrite E. cbn [obind].
      do 5 eexists. split; [reflexivity|]. split; [eassumption|]. split; auto.
      destruct (exists_last' vals) as [->|(l & x & ->)]; [cbn; lia|]. rewrite removelast_last, app_length. cbn; lia.
    - destruct (dll_remove_ok (fun v => cmp v x =? 0) m h addrs vals fuel H Hf) as (m' & h' & ad' & E & H' & _). rewrite E. cbn [obind].
      do 5 eexists. split; [reflexivity|]. split; [eassumption|]. split; auto.
      clear. induction vals as [|v vals IH]; cbn; [lia|]. destruct (_ =? 0); cbn in *; lia.
  Qed.

  Lemma pll_run_ok fuel : forall os (m : mem A) h addrs vals, dll_holds m h addrs vals -> descending cmp vals ->
    pll_allocs_fresh cmp fuel m h os -> (length vals + length os < fuel)%nat ->
    exists rs m' h' addrs' vals', pll_run cmp fuel m h os = Ok (rs, m', h') /\ dll_holds m' h' addrs' vals' /\
      descending cmp vals' /\ prio_run cmp vals (map fst os) rs vals'.
  Proof.
    induction os as [|[o a] os IH]; intros m h addrs vals H D F Hf; cbn [pll_run map fst].
    - do 5 eexists. split; [reflexivity|]. split; [eassumption|]. split; auto. constructor.
    - destruct F as (Fa & F).
      destruct (pll_step_ok fuel m h addrs vals o a H D Fa) as (r & m1 & h1 & ad1 & v1 & E & H1 & P & L); [lia|].
      rewrite E in F |- *. cbn [obind].
      destruct (IH m1 h1 ad1 v1 H1) as (rs & m2 & h2 & ad2 & v2 & E2 & H2 & D2 & P2); auto.
      + eapply prio_step_desc; eauto.
      + cbn in Hf; lia.
      + rewrite E2. cbn [obind]. do 5 eexists. split; [reflexivity|]. split; [eassumption|]. split; auto.
        econstructor; eauto.
  Qed.
End PHist.
