(** Proofs about reference counted objects: sequential use. *)
From Verif Require Import Base Memory_Model Memory_Spec.

Lemma phase_snoc r l c x : phase_of r (l ++ [c]) x = if Nat.eq_dec (call_id c) x then follow r (phase_of r l x) c else phase_of r l x.
Proof. unfold phase_of. rewrite fold_left_app. reflexivity. Qed.

Record SInv (r : bool) (p : pool) (f : nat -> nat) (live : list nat) : Prop := mkSInv {
  si_r : has_refresh p = r;
  si_nodup : NoDup (free p ++ refreshed p ++ live);
  si_total : Permutation (total p) (free p ++ refreshed p ++ live);
  si_live : forall x, In x live <-> (0 < f x)%nat;
  si_free : forall x, In x (free p) -> items p x = Some (mkItem false true 0) /\ phase_of r (calls p) x = Some (unused r);
  si_refr : forall x, In x (refreshed p) -> items p x = Some (mkItem false false 0) /\ phase_of r (calls p) x = Some Ready;
  si_used : forall x, In x live -> items p x = Some (mkItem true false (Z.of_nat (f x))) /\ phase_of r (calls p) x = Some Live;
  si_none : forall x, ~ In x (free p ++ refreshed p ++ live) -> items p x = None /\ exists h, phase_of r (calls p) x = Some h /\ h <> Live;
  si_new : forall x, (next p <= x)%nat -> ~ In x (free p ++ refreshed p ++ live) /\ phase_of r (calls p) x = Some (unused r);
  si_cur : cur p = u32 (Z.of_nat (length live));
  si_bound : forall x, Z.of_nat (f x) < 4294967296 }.

Lemma unused_nl r : unused r <> Live. Proof. destruct r; discriminate. Qed.
Ltac app_in := cbn [app In] in *; rewrite ?in_app_iff in *; cbn [In] in *; rewrite ?in_app_iff in *.
Ltac eqd := repeat match goal with |- context [Nat.eq_dec ?a ?b] => destruct (Nat.eq_dec a b); subst; try congruence; try lia
                              | H : context [Nat.eq_dec ?a ?b] |- _ => destruct (Nat.eq_dec a b); subst; try congruence; try lia end.

Definition frame (p q : pool) : Prop := per_block q = per_block p /\ min_count q = min_count p.
Lemma frame_refl p : frame p p. Proof. split; reflexivity. Qed.
Lemma increase1_inv r p f live : SInv r p f live -> SInv r (increase1 p) f live.
Proof.
  intros [Hr Hn Ht Hl Hf Hre Hu Hno Hne Hc Hb].
  destruct (Hne (next p) (le_n _)) as [Hni Hph].
  constructor; cbn [increase1 has_refresh free refreshed total items calls next cur set_item]; auto.
  - rewrite <- !app_assoc. cbn [app]. apply NoDup_Add with (a := next p) (l := free p ++ refreshed p ++ live); [apply Add_app|]. auto.
  - rewrite <- !app_assoc. cbn [app]. rewrite <- (Permutation_middle (free p)), <- Permutation_cons_append. apply Permutation_cons; auto.
  - intros x. rewrite in_app_iff. cbn [In]. intros [H|[<-|[]]].
    + destruct (Nat.eq_dec x (next p)); [subst; exfalso; apply Hni; app_in; auto|auto].
    + destruct (Nat.eq_dec (next p) (next p)); [split; auto|congruence].
  - intros x H. destruct (Nat.eq_dec x (next p)); [subst; exfalso; apply Hni; app_in; auto|auto].
  - intros x H. destruct (Nat.eq_dec x (next p)); [subst; exfalso; apply Hni; app_in; auto|auto].
  - intros x H. destruct (Nat.eq_dec x (next p)); [subst; exfalso; apply H; app_in; auto|]. apply Hno. intros H'. apply H. app_in. tauto.
  - intros x H. split; [|apply Hne; lia]. intros H'. destruct (Hne x) as [H1 _]; [lia|]. apply H1. app_in. intuition lia.
Qed.
Lemma increase_inv r n : forall p f live, SInv r p f live -> SInv r (increase n p) f live.
Proof. induction n; cbn [increase]; auto. intros. apply IHn, increase1_inv; auto. Qed.

(** items moved from "available" to "in use": common core of the allocation cases *)
Lemma u32_one : u32 (0 + 1) = 1. Proof. reflexivity. Qed.
Lemma u32_succ n : u32 (u32 n + 1) = u32 (n + 1). Proof. unfold u32. rewrite Z.add_mod_idemp_l by lia. reflexivity. Qed.
Lemma u32_pred n : u32 (u32 n - 1) = u32 (n - 1). Proof. unfold u32. rewrite Zminus_mod_idemp_l. reflexivity. Qed.

Lemma new_refreshed r p f live x l : SInv r p f live -> refreshed p = x :: l ->
  exists q, new_obj p = Ok (x, q) /\ f x = 0%nat /\ (frame p q /\ total q = total p) /\ SInv r q (refs_inc f x) (x :: live).
Proof.
  intros [Hr Hn Ht Hl Hf Hre Hu Hno Hne Hc Hb] E. rewrite E in *.
  destruct (Hre x (or_introl eq_refl)) as [Ix Px].
  assert (Nx : ~ In x (free p) /\ ~ In x l /\ ~ In x live).
  { apply NoDup_remove_2 in Hn. rewrite !in_app_iff in Hn. tauto. }
  assert (F0 : f x = 0%nat) by (destruct (f x) eqn:Ef; auto; exfalso; apply (proj2 (proj2 Nx)), Hl; lia).
  unfold new_obj. cbn [memory_new]. unfold pop_refreshed. rewrite E. cbn [obind]. unfold try_take.
  cbn [items set_refreshed]. rewrite Ix. cbn [in_use obind].
  unfold ref_obj. cbn [items count_up add_call set_cur set_item]. destruct (Nat.eq_dec x x); [|congruence]. cbn [obind in_use needs_refresh ref_count].
  eexists. split; [reflexivity|]. split; auto. split; [split; [try apply Q11; split; reflexivity|cbn; auto]|].
  constructor; cbn [has_refresh free refreshed total items calls next cur set_item set_refreshed set_cur add_call count_up length]; auto.
  - apply Permutation_NoDup with (2 := Hn). apply Permutation_app_head. cbn. rewrite <- Permutation_middle. reflexivity.
  - rewrite Ht. apply Permutation_app_head. cbn. apply Permutation_middle.
  - intros y. cbn [In]. unfold refs_inc. rewrite Hl. eqd; intuition (try lia; try congruence).
  - intros y Hy. destruct (Hf y Hy). rewrite phase_snoc. cbn [call_id]. assert (y <> x) by (intros ->; tauto). eqd; auto.
  - intros y Hy. destruct (Hre y (or_intror Hy)). rewrite phase_snoc. cbn [call_id]. assert (y <> x) by (intros ->; tauto). eqd; auto.
  - intros y [<-|Hy].
    + rewrite phase_snoc. cbn [call_id]. destruct (Nat.eq_dec x x); [|congruence]. unfold refs_inc. destruct (Nat.eq_dec x x); [|congruence]. rewrite F0, Px. split; auto.
    + destruct (Hu y Hy). rewrite phase_snoc. cbn [call_id]. assert (y <> x) by (intros ->; tauto). unfold refs_inc. eqd; auto.
  - intros y Hy. assert (y <> x) by (intros ->; apply Hy; app_in; auto). destruct (Hno y) as [H1 H2]; [intros H'; apply Hy; app_in; intuition congruence|]. rewrite phase_snoc. cbn [call_id]. eqd; auto.
  - intros y Hy. destruct (Hne y Hy) as [H1 H2]. assert (y <> x) by (intros ->; apply H1; app_in; auto). split; [|rewrite phase_snoc; cbn [call_id]; eqd; auto].
    intros H'. apply H1. app_in. intuition congruence.
  - rewrite Hc, u32_succ. f_equal. lia.
  - intros y. unfold refs_inc. destruct (Nat.eq_dec y x); [subst; rewrite F0; lia|auto].
Qed.

Lemma new_free r p f live x l : SInv r p f live -> refreshed p = [] -> free p = x :: l ->
  exists q, new_obj p = Ok (x, q) /\ f x = 0%nat /\ (frame p q /\ total q = total p) /\ SInv r q (refs_inc f x) (x :: live).
Proof.
  intros [Hr Hn Ht Hl Hf Hre Hu Hno Hne Hc Hb] E0 E. rewrite E0, E in *. cbn [app] in *.
  destruct (Hf x (or_introl eq_refl)) as [Ix Px].
  assert (Nx : ~ In x l /\ ~ In x live).
  { inversion Hn; subst. rewrite in_app_iff in *. tauto. }
  assert (F0 : f x = 0%nat) by (destruct (f x) eqn:Ef; auto; exfalso; apply (proj2 Nx), Hl; lia).
  unfold new_obj. cbn [memory_new]. unfold pop_refreshed. rewrite E0. unfold pop_free. rewrite E. unfold refresh. cbn [items set_free]. rewrite Ix. cbn [in_use needs_refresh negb andb obind].
  set (q1 := if has_refresh (set_free p l) then _ else _).
  assert (Q : items q1 x = Some (mkItem false false 0) /\ (forall y, y <> x -> items q1 y = items p y) /\ free q1 = l /\ refreshed q1 = [] /\ total q1 = total p /\ next q1 = next p /\ cur q1 = cur p /\
     has_refresh q1 = r /\ phase_of r (calls q1) x = Some Ready /\ (forall y, y <> x -> phase_of r (calls q1) y = phase_of r (calls p) y) /\ frame p q1).
  { unfold q1. cbn [has_refresh set_free]. rewrite Hr. destruct r; cbn [items add_call set_item set_free free refreshed total next cur has_refresh calls].
    - destruct (Nat.eq_dec x x); [|congruence]. repeat split; auto; try (intros; eqd; auto).
      + rewrite phase_snoc. cbn [call_id]. eqd. rewrite Px. reflexivity.
      + rewrite phase_snoc. cbn [call_id]. eqd; auto.
    - destruct (Nat.eq_dec x x); [|congruence]. repeat split; auto; try (intros; eqd; auto). }
  clearbody q1. destruct Q as (Q1 & Q2 & Q3 & Q4 & Q5 & Q6 & Q7 & Q8 & Q9 & Q10 & Q11).
  unfold try_take. rewrite Q1. cbn [in_use needs_refresh ref_count obind].
  unfold ref_obj. cbn [items count_up add_call set_cur set_item]. destruct (Nat.eq_dec x x); [|congruence]. cbn [obind in_use needs_refresh ref_count].
  eexists. split; [reflexivity|]. split; auto. split; [split; [try apply Q11; split; reflexivity|cbn; auto]|].
  constructor; cbn [has_refresh free refreshed total items calls next cur set_item set_refreshed set_cur add_call count_up length]; rewrite ?Q3, ?Q4, ?Q5, ?Q6, ?Q7; cbn [app]; auto.
  - apply Permutation_NoDup with (2 := Hn). rewrite <- Permutation_middle. reflexivity.
  - rewrite Ht. apply Permutation_middle.
  - intros y. cbn [In]. unfold refs_inc. rewrite Hl. eqd; intuition (try lia; try congruence).
  - intros y Hy. destruct (Hf y (or_intror Hy)). rewrite phase_snoc. cbn [call_id]. assert (y <> x) by (intros ->; tauto). rewrite Q2, Q10 by auto. eqd; auto.
  - intros y [].
  - intros y [<-|Hy].
    + rewrite phase_snoc. cbn [call_id]. destruct (Nat.eq_dec x x); [|congruence]. unfold refs_inc. destruct (Nat.eq_dec x x); [|congruence]. rewrite F0, Q9. split; auto.
    + destruct (Hu y Hy). rewrite phase_snoc. cbn [call_id]. assert (y <> x) by (intros ->; tauto). rewrite Q2, Q10 by auto. unfold refs_inc. eqd; auto.
  - intros y Hy. assert (y <> x) by (intros ->; apply Hy; app_in; auto). destruct (Hno y) as [H1 H2]; [intros H'; apply Hy; app_in; intuition congruence|]. rewrite phase_snoc. cbn [call_id]. rewrite Q2, Q10 by auto. eqd; auto.
  - intros y Hy. destruct (Hne y Hy) as [H1 H2]. assert (y <> x) by (intros ->; apply H1; app_in; auto). split; [|rewrite phase_snoc; cbn [call_id]; rewrite Q10 by auto; eqd; auto].
    intros H'. apply H1. app_in. intuition congruence.
  - rewrite Hc, u32_succ. f_equal. lia.
  - intros y. unfold refs_inc. destruct (Nat.eq_dec y x); [subst; rewrite F0; lia|auto].
Qed.

Lemma new_step r p f live : SInv r p f live -> exists x q, new_obj p = Ok (x, q) /\ f x = 0%nat /\ (frame p q /\ (length (total p) <= length (total q))%nat) /\ SInv r q (refs_inc f x) (x :: live).
Proof.
  intros HI. destruct (refreshed p) as [|x l] eqn:E.
  - destruct (free p) as [|x l] eqn:E1.
    + pose proof (increase1_inv _ _ _ _ HI) as HI'.
      assert (EQ : new_obj p = new_obj (increase1 p)).
      { unfold new_obj. cbn [memory_new]. unfold pop_refreshed. cbn [increase1 refreshed set_item]. rewrite E.
        unfold pop_free at 1. rewrite E1. cbn [increase]. unfold pop_free at 2. cbn [increase1 free set_item]. rewrite E1. cbn [app].
        unfold pop_free. cbn [increase1 free set_item]. rewrite E1. cbn [app].
        assert (II : items (set_free (increase1 p) []) (next p) = Some (mkItem false true 0)) by (cbn; eqd; auto).
        unfold refresh. rewrite II. cbn [in_use needs_refresh negb andb obind].
        set (q := if has_refresh _ then _ else _). assert (IQ : items q (next p) = Some (mkItem false false 0)) by (unfold q; destruct (has_refresh _); cbn; eqd; auto).
        unfold try_take. rewrite IQ. reflexivity. }
      rewrite EQ. destruct (new_free r (increase1 p) f live (next p) [] HI') as (q & H); cbn [increase1 refreshed free set_item]; rewrite ?E, ?E1; auto.
      destruct H as (H1 & H2 & (H3 & H4) & H5). exists (next p), q. split; auto. split; auto. split; auto. split; [exact H3|rewrite H4; cbn; rewrite app_length; lia].
    + destruct (new_free r p f live x l HI E E1) as (q & H1 & H2 & (H3 & H4) & H5). exists x, q. split; auto. split; auto. split; auto. split; auto. rewrite H4. auto.
  - destruct (new_refreshed r p f live x l HI E) as (q & H1 & H2 & (H3 & H4) & H5). exists x, q. split; auto. split; auto. split; auto. split; auto. rewrite H4. auto.
Qed.

Lemma ref_step r p f live x : SInv r p f live -> (0 < f x)%nat -> Z.of_nat (f x) < 4294967295 ->
  exists q, ref_obj p x = Ok q /\ (frame p q /\ total q = total p) /\ SInv r q (refs_inc f x) live.
Proof.
  intros [Hr Hn Ht Hl Hf Hre Hu Hno Hne Hc Hb] F B. assert (L : In x live) by (apply Hl; auto).
  destruct (Hu x L) as [Ix Px]. unfold ref_obj. rewrite Ix. eexists. split; [reflexivity|]. split; [repeat split|]. cbn [in_use needs_refresh ref_count].
  assert (NF : ~ In x (free p) /\ ~ In x (refreshed p)).
  { split; intros H; [destruct (Hf x H)|destruct (Hre x H)]; congruence. }
  constructor; cbn [has_refresh free refreshed total items calls next cur set_item]; auto.
  - intros y. rewrite Hl. unfold refs_inc. eqd; lia.
  - intros y H. eqd; [tauto|auto].
  - intros y H. eqd; [tauto|auto].
  - intros y H. unfold refs_inc. eqd; [|auto]. split; auto. do 2 f_equal. unfold u32. rewrite Z.mod_small; lia.
  - intros y H. eqd; [exfalso; apply H; app_in; auto|auto].
  - intros y. unfold refs_inc. eqd; auto; lia.
Qed.

Lemma unref_step r p f live x : SInv r p f live -> (0 < f x)%nat ->
  exists q live', unref_obj p x = Ok (Z.of_nat (f x) - 1, q) /\ SInv r q (refs_dec f x) live' /\
    (frame p q /\ total q = total p) /\ calls q = (if Nat.eq_dec (f x) 1 then calls p ++ [OnFree x] else calls p).
Proof.
  intros [Hr Hn Ht Hl Hf Hre Hu Hno Hne Hc Hb] F. assert (L : In x live) by (apply Hl; auto).
  destruct (Hu x L) as [Ix Px]. unfold unref_obj, dec_ref. rewrite Ix. cbn [ref_count in_use needs_refresh].
  destruct (Z.eqb_spec (Z.of_nat (f x)) 0); [lia|]. cbn [obind]. unfold memory_free, free_check. cbn [items set_item]. destruct (Nat.eq_dec x x); [|congruence]. cbn [ref_count in_use needs_refresh].
  assert (NF : ~ In x (free p) /\ ~ In x (refreshed p)).
  { split; intros H; [destruct (Hf x H)|destruct (Hre x H)]; congruence. }
  destruct (Nat.eq_dec (f x) 1) as [F1|F1].
  - rewrite F1. change (Z.of_nat 1 - 1) with 0. cbn [Z.eqb andb obind has_refresh set_item]. rewrite Hr.
    apply in_split in L. destruct L as (l1 & l2 & EL).
    assert (ND : ~ In x (l1 ++ l2) /\ NoDup (l1 ++ l2)).
    { rewrite EL in Hn. rewrite app_assoc in Hn. assert (H : NoDup (l1 ++ x :: l2)) by (clear -Hn; induction (free p ++ refreshed p); auto; cbn in Hn; inversion Hn; auto).
      split; [apply NoDup_remove_2 in H|apply NoDup_remove_1 in H]; auto. }
    exists (count_down (if r then let p2 := set_item (add_call (set_item p x (Some (mkItem true false 0))) (OnFree x)) x (Some (mkItem false true 0)) in set_free p2 (free p2 ++ [x])
      else let p2 := set_item (add_call (set_item p x (Some (mkItem true false 0))) (OnFree x)) x (Some (mkItem false false 0)) in set_refreshed p2 (refreshed p2 ++ [x]))), (l1 ++ l2).
    split; [destruct r; reflexivity|]. split.
    + assert (EL' : Permutation (x :: l1 ++ l2) live) by (rewrite EL; apply Permutation_middle).
      assert (Lv : forall y, In y (l1 ++ l2) <-> y <> x /\ In y live).
      { intros y. rewrite EL. rewrite !in_app_iff. cbn [In]. rewrite in_app_iff in ND. split; [|intuition congruence]. intros H. split; [intros ->; tauto|tauto]. }
      assert (Len : length live = S (length (l1 ++ l2))) by (rewrite EL, !app_length; cbn; lia).
      assert (PT1 : Permutation (free p ++ refreshed p ++ live) ((free p ++ [x]) ++ refreshed p ++ l1 ++ l2)).
      { rewrite <- EL'. rewrite <- app_assoc. apply Permutation_app_head. cbn [app]. symmetry. apply Permutation_middle. }
      assert (PT2 : Permutation (free p ++ refreshed p ++ live) (free p ++ (refreshed p ++ [x]) ++ l1 ++ l2)).
      { rewrite <- EL'. rewrite <- app_assoc. reflexivity. }
      assert (Xin : In x (free p ++ refreshed p ++ live)) by (rewrite EL, !in_app_iff; cbn [In]; auto).
      destruct r; constructor; cbn [count_down set_cur has_refresh free refreshed total items calls next cur set_item set_free set_refreshed add_call]; auto.
      all: try (rewrite Ht; assumption).
      all: try (eapply Permutation_NoDup; [eassumption|exact Hn]).
      all: try (intros y; rewrite Lv; unfold refs_dec; rewrite Hl; destruct (Nat.eq_dec y x); [subst; rewrite F1|]; cbn; intuition lia).
      all: try (rewrite Hc, u32_pred, Len; f_equal; lia).
      all: try (intros y; unfold refs_dec; specialize (Hb y); destruct (Nat.eq_dec y x); lia).
      all: try (intros y; rewrite in_app_iff; cbn [In]; intros [H|[<-|[]]]; rewrite phase_snoc; cbn [call_id]; eqd; try tauto; auto; rewrite Px; auto; fail).
      all: try (intros y H; rewrite phase_snoc; cbn [call_id]; eqd; try tauto; auto; fail).
      all: try (intros y H; apply Lv in H; destruct H as [H1 H2]; rewrite phase_snoc; unfold refs_dec; cbn [call_id]; eqd; auto; fail).
      all: intros y H.
      1,3: match type of H with ~ In _ ?l => assert (H' : ~ In y (free p ++ refreshed p ++ live)) by (intros H'; apply H; eapply Permutation_in; eassumption) end;
           assert (y <> x) by (intros ->; tauto); rewrite phase_snoc; cbn [call_id]; eqd; apply Hno; auto.
      all: destruct (Hne y H) as [H1 H2]; assert (y <> x) by (intros ->; tauto); rewrite phase_snoc; cbn [call_id]; eqd; split; auto;
           intros H'; apply H1; first [exact (Permutation_in _ (Permutation_sym PT1) H')|exact (Permutation_in _ (Permutation_sym PT2) H')].
    + destruct r; repeat split.
  - destruct (Z.eqb_spec (Z.of_nat (f x) - 1) 0); [lia|]. cbn [andb obind].
    eexists _, live. split; [reflexivity|]. split; [|repeat split].
    constructor; cbn [has_refresh free refreshed total items calls next cur set_item]; auto.
    + intros y. rewrite Hl. unfold refs_dec. eqd; lia.
    + intros y H. eqd; [tauto|auto].
    + intros y H. eqd; [tauto|auto].
    + intros y H. unfold refs_dec. eqd; [|auto]. split; auto. do 2 f_equal. lia.
    + intros y H. eqd; [exfalso; apply H; app_in; auto|auto].
    + intros y. unfold refs_dec. specialize (Hb y). eqd; auto; lia.
Qed.

(** ** management *)
Lemma pop_delete r p f live x q : SInv r p f live ->
  (match pop_free p with (Some x, q) => (Some x, q) | (None, q) => pop_refreshed q end) = (Some x, q) ->
  exists q', delete q x = Ok q' /\ SInv r q' f live /\ S (length (total q')) = length (total p) /\ frame p q'.
Proof.
  intros [Hr Hn Ht Hl Hf Hre Hu Hno Hne Hc Hb] E.
  assert (G : exists l1 l2, Permutation (free p ++ refreshed p ++ live) (x :: free q ++ refreshed q ++ live) /\ ~ In x (free q ++ refreshed q ++ live) /\ NoDup (free q ++ refreshed q ++ live) /\
     items q = items p /\ calls q = calls p /\ total q = total p /\ next q = next p /\ cur q = cur p /\ has_refresh q = has_refresh p /\ frame p q /\
     (forall y, In y (free q) -> In y (free p)) /\ (forall y, In y (refreshed q) -> In y (refreshed p)) /\
     exists i, items p x = Some i /\ in_use i = false /\ l1 = @nil nat /\ l2 = @nil nat /\ exists h, phase_of r (calls p) x = Some h /\ h <> Live).
  { exists [], []. unfold pop_free in E. destruct (free p) as [|y l] eqn:Ef.
    - unfold pop_refreshed in E. destruct (refreshed p) as [|y l] eqn:Er; [discriminate|]. injection E as <- <-.
      cbn [app free refreshed set_refreshed items calls total next cur has_refresh] in *. rewrite Ef. cbn [app]. inversion Hn; subst.
      destruct (Hre y (or_introl eq_refl)) as [I1 P1].
      split; [reflexivity|]. split; [auto|]. split; [auto|]. do 6 (split; [reflexivity|]). split; [split; reflexivity|]. split; [tauto|]. split; [intros; right; auto|].
      eexists. split; [exact I1|]. repeat split. exists Ready. split; [auto|discriminate].
    - injection E as <- <-. cbn [app free refreshed set_free items calls total next cur has_refresh] in *. inversion Hn; subst.
      destruct (Hf y (or_introl eq_refl)) as [I1 P1].
      split; [reflexivity|]. split; [auto|]. split; [auto|]. do 6 (split; [reflexivity|]). split; [split; reflexivity|]. split; [intros; right; auto|]. split; [tauto|].
      eexists. split; [exact I1|]. repeat split. eexists. split; [exact P1|apply unused_nl]. }
  destruct G as (? & ? & PM & Nx & Nd & G1 & G2 & G3 & G4 & G5 & G6 & G7 & G8 & G9 & i & I1 & I2 & _ & _ & h & P1 & P2).
  unfold delete. rewrite G1, I1, I2. eexists. split; [reflexivity|].
  assert (RT : Permutation (remove Nat.eq_dec x (total q)) (free q ++ refreshed q ++ live)).
  { rewrite G3. assert (PX : Permutation (total p) (x :: free q ++ refreshed q ++ live)) by (rewrite Ht; auto).
    assert (NDt : NoDup (total p)) by (eapply Permutation_NoDup; [symmetry; exact Ht|auto]).
    apply NoDup_Permutation; auto.
    - clear -NDt. induction NDt; cbn; [constructor|]. destruct (Nat.eq_dec x x0); auto. constructor; auto. intros H'. apply in_remove in H'. tauto.
    - intros y. split; intros H'.
      + apply in_remove in H'. destruct H' as [H1 H2]. apply (Permutation_in _ PX) in H1. destruct H1; [congruence|auto].
      + apply in_in_remove; [intros ->; tauto|]. apply (Permutation_in _ (Permutation_sym PX)). right. auto. }
  split; [|split].
  - constructor; cbn [has_refresh free refreshed total items calls next cur set_item set_total]; rewrite ?G1, ?G2, ?G3, ?G4, ?G5, ?G6; auto.
    + rewrite G3 in RT. exact RT.
    + intros y H. assert (y <> x) by (intros ->; apply Nx; rewrite !in_app_iff; auto). eqd; auto.
    + intros y H. assert (y <> x) by (intros ->; apply Nx; rewrite !in_app_iff; auto). eqd; auto.
    + intros y H. assert (y <> x) by (intros ->; apply Nx; rewrite !in_app_iff; auto). eqd; auto.
    + intros y H. eqd; [split; eauto|]. apply Hno. intros H'. apply (Permutation_in _ PM) in H'. destruct H'; [congruence|auto].
    + intros y H. destruct (Hne y H) as [H1 H2]. split; auto. intros H'. apply H1. apply (Permutation_in _ (Permutation_sym PM)). right. auto.
  - cbn [total set_item set_total]. rewrite (Permutation_length RT), (Permutation_length Ht), (Permutation_length PM). reflexivity.
  - destruct G7. split; auto.
Qed.
Lemma decrease_step r n : forall p f live, SInv r p f live -> exists q, decrease n p = Ok q /\ SInv r q f live /\ (length (total p) <= length (total q) + n)%nat /\ frame p q.
Proof.
  induction n; intros p f live HI; cbn [decrease]; [exists p; split; auto; split; auto; split; [lia|apply frame_refl]|].
  destruct (match pop_free p with (Some x, q) => (Some x, q) | (None, q) => pop_refreshed q end) as [[x|] q] eqn:E.
  - destruct (pop_delete r p f live x q HI E) as (q' & D & HI' & L & F). rewrite D. cbn [obind].
    destruct (IHn q' f live HI') as (q2 & E2 & HI2 & L2 & F2). exists q2. split; auto. split; auto. split; [lia|]. unfold frame in *. intuition congruence.
  - assert (q = p). { unfold pop_free in E. destruct (free p) eqn:Ef; [|discriminate]. unfold pop_refreshed in E. destruct (refreshed p); [|discriminate]. congruence. }
    subst. exists p. split; auto; split; auto; split; [lia|apply frame_refl].
Qed.
Lemma refresh_all_step r l : forall p f live,
  (forall p', p' = set_free p (l ++ free p) -> SInv r p' f live) -> exists q, refresh_all l p = Ok q /\ SInv r q f live /\ total q = total p /\ frame p q.
Proof.
  induction l as [|x l IH]; intros p f live H.
  - specialize (H _ eq_refl). cbn [app] in H. exists p. cbn [refresh_all]. split; auto. split; [|repeat split]. destruct p; exact H.
  - specialize (H _ eq_refl). destruct H as [Hr Hn Ht Hl Hf Hre Hu Hno Hne Hc Hb]. cbn [has_refresh free refreshed total items calls next cur set_free app] in *.
    destruct (Hf x (or_introl eq_refl)) as [Ix Px]. cbn [refresh_all]. unfold refresh. rewrite Ix. cbn [in_use needs_refresh negb andb obind].
    set (q1 := if has_refresh p then _ else _).
    assert (Q : items q1 x = Some (mkItem false false 0) /\ (forall y, y <> x -> items q1 y = items p y) /\ free q1 = free p /\ refreshed q1 = refreshed p /\ total q1 = total p /\ next q1 = next p /\ cur q1 = cur p /\
       has_refresh q1 = r /\ phase_of r (calls q1) x = Some Ready /\ (forall y, y <> x -> phase_of r (calls q1) y = phase_of r (calls p) y) /\ frame p q1).
    { unfold q1. rewrite Hr. destruct r; cbn [items add_call set_item set_free free refreshed total next cur has_refresh calls].
      - destruct (Nat.eq_dec x x); [|congruence]. repeat split; auto; try (intros; eqd; auto; fail); [rewrite phase_snoc; cbn [call_id]; eqd; rewrite Px; reflexivity|intros y Hy; rewrite phase_snoc; cbn [call_id]; eqd; auto].
      - destruct (Nat.eq_dec x x); [|congruence]. repeat split; auto; try (intros; eqd; auto; fail). }
    clearbody q1. destruct Q as (Q1 & Q2 & Q3 & Q4 & Q5 & Q6 & Q7 & Q8 & Q9 & Q10 & Q11).
    assert (PM : Permutation (x :: (l ++ free p) ++ refreshed p ++ live) ((l ++ free p) ++ (refreshed p ++ [x]) ++ live)).
    { rewrite <- (app_assoc (refreshed p)). cbn [app]. rewrite <- (Permutation_middle (refreshed p)). apply Permutation_middle. }
    assert (Nx : ~ In x ((l ++ free p) ++ refreshed p ++ live)) by (inversion Hn; auto).
    destruct (IH (set_refreshed q1 (refreshed q1 ++ [x])) f live) as (q2 & E2 & HI2 & T2 & F2).
    + intros p' ->. constructor; cbn [has_refresh free refreshed total items calls next cur set_free set_refreshed]; rewrite ?Q3, ?Q4, ?Q5, ?Q6, ?Q7; auto.
      * eapply Permutation_NoDup; [exact PM|exact Hn].
      * rewrite Ht. exact PM.
      * intros y Hy. assert (y <> x) by (intros ->; apply Nx; rewrite !in_app_iff in *; tauto). rewrite Q2, Q10 by auto. apply Hf. right. auto.
      * intros y. rewrite in_app_iff. intros [Hy|[<-|[]]]; [|auto]. assert (y <> x) by (intros ->; apply Nx; rewrite !in_app_iff in *; tauto). rewrite Q2, Q10 by auto. auto.
      * intros y Hy. assert (y <> x) by (intros ->; apply Nx; rewrite !in_app_iff in *; tauto). rewrite Q2, Q10 by auto. auto.
      * intros y Hy. assert (y <> x) by (intros ->; apply Hy; apply (Permutation_in _ PM); left; auto). rewrite Q2, Q10 by auto. apply Hno. intros H'. apply Hy. apply (Permutation_in _ PM). auto.
      * intros y Hy. destruct (Hne y Hy) as [H1 H2]. assert (y <> x) by (intros ->; apply H1; left; auto). rewrite Q10 by auto. split; auto. intros H'. apply H1. apply (Permutation_in _ (Permutation_sym PM)). auto.
    + exists q2. split; auto. split; auto. split; [rewrite T2; cbn; auto|]. unfold frame in *. cbn in F2. intuition congruence.
Qed.
Lemma management_step r p f live w : SInv r p f live ->
  exists q, management w p = Ok q /\ SInv r q f live /\ (min_count p <= length (total p) -> min_count q <= length (total q))%nat /\ frame p q.
Proof.
  intros HI. unfold management. destruct (has_refresh p) eqn:E; [|exists p; split; auto; split; auto; split; [auto|apply frame_refl]].
  assert (D : exists q, (if decrease_necessary w p then decrease (per_block p) p else Ok p) = Ok q /\ SInv r q f live /\ (min_count p <= length (total p) -> min_count p <= length (total q))%nat /\ frame p q).
  { destruct (decrease_necessary w p) eqn:ED; [|exists p; split; auto; split; auto; split; [auto|apply frame_refl]].
    destruct (decrease_step r (per_block p) p f live HI) as (q & E1 & HI' & L & F). exists q. split; auto. split; auto. split; [|exact F]. intros _.
    unfold decrease_necessary in ED. apply andb_true_iff in ED. destruct ED as [ED _]. rewrite (si_cur _ _ _ _ HI) in ED.
    pose proof (Permutation_length (si_total _ _ _ _ HI)) as LT. rewrite !app_length in LT.
    pose proof (Z.mod_le (Z.of_nat (length live)) 4294967296 ltac:(lia) ltac:(lia)). unfold u32 in ED. lia. }
  destruct D as (q & -> & HI1 & M & F). cbn [obind].
  destruct (refresh_all_step r (free q) (set_free q []) f live) as (q2 & E2 & HI2 & T2 & F2).
  - intros p' ->. cbn [free set_free]. rewrite app_nil_r. destruct q; exact HI1.
  - exists q2. split; auto. split; auto. unfold frame in *. cbn in F2, T2. rewrite T2. intuition (try congruence; try lia).
Qed.

Lemma increase_total n : forall p, length (total (increase n p)) = (length (total p) + n)%nat /\ frame p (increase n p).
Proof.
  induction n; intros p; cbn [increase]; [split; [lia|repeat split]|]. destruct (IHn (increase1 p)) as [H1 H2]. rewrite H1. cbn [increase1 total set_item]. rewrite app_length. cbn.
  split; [lia|]. unfold frame in *. cbn in H2. auto.
Qed.
Lemma blocks_inv r n : forall i p f live, SInv r p f live -> SInv r (blocks n i p) f live /\ frame p (blocks n i p).
Proof.
  induction n; intros i p f live HI; cbn [blocks]; [split; [auto|apply frame_refl]|]. destruct (per_block p * i <? min_count p)%nat; [|split; [auto|apply frame_refl]].
  destruct (IHn (S i) (increase (per_block p) p) f live) as [H1 H2]; [apply increase_inv; auto|]. split; auto. destruct (increase_total (per_block p) p). unfold frame in *. intuition congruence.
Qed.
Lemma blocks_min n : forall i p, (0 < per_block p)%nat -> (min_count p <= n + i)%nat -> (per_block p * i <= length (total p))%nat -> (min_count p <= length (total (blocks n i p)))%nat.
Proof.
  induction n; intros i p Hp Hm Hl; cbn [blocks]; [nia|]. destruct (Nat.ltb_spec (per_block p * i) (min_count p)); [|lia].
  destruct (increase_total (per_block p) p) as [T [F1 F2]]. rewrite <- F2 at 1. apply IHn; rewrite ?F1, ?F2, ?T; nia.
Qed.
Lemma register_inv r b m : SInv r (register r b m) (fun _ => 0%nat) [] /\ frame (mkPool r b m (fun _ => None) 0 [] [] [] 0 []) (register r b m).
Proof.
  apply blocks_inv. constructor; cbn; auto; try tauto; try (intros; lia).
  all: try (intros; split; intros; try tauto; lia).
  all: try (intros; split; auto; fail).
  - constructor.
  - intros x _. split; auto. exists (unused r). split; [reflexivity|apply unused_nl].
Qed.

Lemma client_inv r l : forall p f live, SInv r p f live ->
  exists q g live', client p f l = Ok (q, g) /\ SInv r q g live' /\ ((min_count p <= length (total p))%nat -> (min_count q <= length (total q))%nat).
Proof.
  induction l as [|o l IH]; intros p f live HI; cbn [client]; [exists p, f, live; auto|].
  destruct (permitted f o) eqn:Ep; [|apply (IH p f live HI)].
  destruct o; cbn [apply permitted] in *.
  - destruct (new_step r p f live HI) as (x & q & E & F0 & HF & HI'). rewrite E. cbn [obind refs_after].
    destruct (IH q (refs_inc f x) (x :: live) HI') as (q2 & g & l2 & E2 & HI2 & M2). exists q2, g, l2. split; auto. split; auto. intros M. apply M2.
    destruct HF as [[_ F2] F3]. lia.
  - apply andb_true_iff in Ep. destruct (ref_step r p f live x HI) as (q & E & [[_ F2] F3] & HI'); try lia. rewrite E. cbn [obind refs_after].
    destruct (IH q _ _ HI') as (q2 & g & l2 & E2 & HI2 & M2). exists q2, g, l2. split; auto. split; auto. rewrite F2, F3 in M2. auto.
  - destruct (unref_step r p f live x HI) as (q & live' & E & HI' & [[_ F2] F3] & _); try lia. rewrite E. cbn [obind refs_after].
    destruct (IH q _ _ HI') as (q2 & g & l2 & E2 & HI2 & M2). exists q2, g, l2. split; auto. split; auto. rewrite F2, F3 in M2. auto.
  - destruct (management_step r p f live wish HI) as (q & E & HI' & M & _). rewrite E. cbn [obind refs_after].
    destruct (IH q _ _ HI') as (q2 & g & l2 & E2 & HI2 & M2). exists q2, g, l2. auto.
Qed.
