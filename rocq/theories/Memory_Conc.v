(** Proofs about reference counted objects: concurrent use. *)
From Verif Require Import Base Memory_Model Memory_Spec.

Lemma count_cons x t y h : count x ((t, y) :: h) = ((if Nat.eqb y x then 1 else 0) + count x h)%nat.
Proof. unfold count. cbn. destruct (Nat.eqb y x); reflexivity. Qed.
Lemma count_drop x t y h : In (t, y) h -> count x h = ((if Nat.eqb y x then 1 else 0) + count x (drop1 h (t, y)))%nat.
Proof.
  induction h as [|[u z] h IH]; intros H; [destruct H|]. cbn [drop1]. destruct (pair_dec (u, z) (t, y)) as [E|E].
  - injection E as -> ->. apply count_cons.
  - destruct H as [H|H]; [congruence|]. rewrite !count_cons, (IH H). lia.
Qed.
Lemma drop_in e h a : In a (drop1 h e) -> In a h.
Proof. induction h as [|b h IH]; cbn; auto. destruct (pair_dec b e); cbn; intuition. Qed.
Lemma count_zero x h : count x h = 0%nat <-> forall t, ~ In (t, x) h.
Proof.
  induction h as [|[u z] h IH]; [split; auto|]. rewrite count_cons. destruct (Nat.eqb_spec z x).
  - subst. split; [lia|]. intros H. exfalso. apply (H u). left. auto.
  - cbn [Nat.add]. rewrite IH. split; intros H t; [intros [E|E]; [congruence|exact (H t E)]|intros E; apply (H t); right; auto].
Qed.

Lemma nodup_app {B} (l m : list B) : NoDup (l ++ m) <-> NoDup l /\ NoDup m /\ forall x, In x l -> ~ In x m.
Proof.
  induction l as [|a l IH]; cbn; [split; [intros H; repeat split; auto; constructor|tauto]|]. rewrite !NoDup_cons_iff, IH, in_app_iff. split.
  - intros (H1 & H2 & H3 & H4). repeat split; auto. intros x [<-|H]; auto.
  - intros ((H1 & H2) & H3 & H4). repeat split; auto. intros [H|H]; [auto|exact (H4 a (or_introl eq_refl) H)].
Qed.

Record CInv (s : conc) : Prop := mkCInv {
  c_lists : NoDup (free (cpool s) ++ refreshed (cpool s));
  c_pop : forall t, NoDup (popped (pcs s t));
  c_popl : forall t x, In x (popped (pcs s t)) -> ~ In x (free (cpool s) ++ refreshed (cpool s));
  c_pop2 : forall t u x, t <> u -> In x (popped (pcs s t)) -> ~ In x (popped (pcs s u));
  c_avail : forall x, In x (free (cpool s) ++ refreshed (cpool s)) -> exists i, items (cpool s) x = Some i /\ in_use i = false;
  c_availp : forall t x, In x (popped (pcs s t)) -> exists i, items (cpool s) x = Some i /\ in_use i = false;
  c_win : forall t x, fresh_for (pcs s t) x -> exists i, items (cpool s) x = Some i /\ in_use i = true /\ count x (holds s) = 0%nat;
  c_win2 : forall t u x, t <> u -> fresh_for (pcs s t) x -> ~ fresh_for (pcs s u) x;
  c_own : forall t x, In (t, x) (holds s) -> exists i, items (cpool s) x = Some i /\ in_use i = true;
  c_rc : forall x i, items (cpool s) x = Some i -> ref_count i = Z.of_nat (count x (holds s));
  c_next : forall x, (next (cpool s) <= x)%nat -> items (cpool s) x = None;
  c_bound : forall x, Z.of_nat (count x (holds s)) < 4294967296;
  c_leak1 : forall x i, items (cpool s) x = Some i -> in_use i = false -> In x (free (cpool s) ++ refreshed (cpool s)) \/ exists t, In x (popped (pcs s t));
  c_leak2 : forall x i, items (cpool s) x = Some i -> in_use i = true -> count x (holds s) = 0%nat -> exists t, fresh_for (pcs s t) x \/ pcs s t = UnFree x }.

Definition step_ok (s : conc) (t : nat) (a : act) : Prop :=
  match step s t a with None => True | Some (Ok s') => CInv s' | Some _ => False end.

Lemma c_disj s x i : CInv s -> items (cpool s) x = Some i -> in_use i = true ->
  ~ In x (free (cpool s) ++ refreshed (cpool s)) /\ forall t, ~ In x (popped (pcs s t)).
Proof.
  intros I E U. split; [intros H; destruct (c_avail s I x H) as (j & E' & U')|intros t H; destruct (c_availp s I t x H) as (j & E' & U')]; congruence.
Qed.
Lemma c_disj' s x i : CInv s -> items (cpool s) x = Some i -> in_use i = false ->
  count x (holds s) = 0%nat /\ forall t, ~ fresh_for (pcs s t) x.
Proof.
  intros I E U. split.
  - apply count_zero. intros t H. destruct (c_own s I t x H) as (j & E' & U'). congruence.
  - intros t H. destruct (c_win s I t x H) as (j & E' & U' & _). congruence.
Qed.

Ltac pcd u t := destruct (Nat.eq_dec u t) as [?|?]; [subst|].
Ltac sim := cbn [cpool pcs holds set_pc set_holds items free refreshed total next cur calls set_item set_free set_refreshed set_total set_cur add_call count_up count_down popped] in *.


(** the invariant does not look at counters and callbacks *)
Lemma cinv_ext q q' f h : items q = items q' -> free q = free q' -> refreshed q = refreshed q' -> next q = next q' ->
  CInv (mkConc q f h) -> CInv (mkConc q' f h).
Proof. intros E1 E2 E3 E4 [? ? ? ? ? ? ? ? ? ? ? ? ? ?]. sim. constructor; sim; rewrite <- ?E1, <- ?E2, <- ?E3, <- ?E4; auto. Qed.

Section Steps.
  Variable s : conc.
  Hypothesis I : CInv s.
  Local Notation p := (cpool s).

  Lemma base_nodup t : NoDup (free p ++ refreshed p ++ popped (pcs s t)).
  Proof.
    rewrite app_assoc. apply nodup_app. split; [apply (c_lists s I)|]. split; [apply (c_pop s I)|]. intros x H1 H2. exact (c_popl s I t x H2 H1).
  Qed.

  (** steps that only change thread [t]'s position, taking items off the lists or putting them there *)
  Lemma move_inv t q c : items q = items p -> next q = next p ->
    Permutation (free p ++ refreshed p ++ popped (pcs s t)) (free q ++ refreshed q ++ popped c) ->
    (forall x, fresh_for (pcs s t) x <-> fresh_for c x) -> (forall x, pcs s t <> UnFree x) ->
    CInv (set_pc s q t c).
  Proof.
    intros Ei En PM W NU. assert (ND := Permutation_NoDup PM (base_nodup t)).
    assert (EQ : forall x, In x (free q ++ refreshed q ++ popped c) <-> In x (free p ++ refreshed p ++ popped (pcs s t))).
    { intros x. split; apply Permutation_in; [symmetry|]; exact PM. }
    rewrite app_assoc in ND.
    assert (EQl : forall x, In x (free q ++ refreshed q) -> In x (free p ++ refreshed p) \/ In x (popped (pcs s t))).
    { intros x H. assert (H' : In x (free q ++ refreshed q ++ popped c)) by (rewrite app_assoc, in_app_iff; auto). apply EQ in H'. rewrite app_assoc, in_app_iff in H'. exact H'. }
    assert (EQc : forall x, In x (popped c) -> In x (free p ++ refreshed p) \/ In x (popped (pcs s t))).
    { intros x H. assert (H' : In x (free q ++ refreshed q ++ popped c)) by (rewrite app_assoc, in_app_iff; auto). apply EQ in H'. rewrite app_assoc, in_app_iff in H'. exact H'. }
    assert (EQr : forall x, In x (free p ++ refreshed p) \/ In x (popped (pcs s t)) -> In x (free q ++ refreshed q) \/ In x (popped c)).
    { intros x H. rewrite <- in_app_iff, <- app_assoc. apply EQ. rewrite app_assoc, in_app_iff. exact H. }
    assert (ND' : NoDup (free q ++ refreshed q) /\ NoDup (popped c) /\ forall x, In x (popped c) -> ~ In x (free q ++ refreshed q)).
    { apply nodup_app in ND. destruct ND as (D1 & D2 & D3). repeat split; auto. intros x H1 H2. exact (D3 x H2 H1). }
    destruct ND' as (ND1 & ND2 & ND3).
    constructor; sim; rewrite ?Ei, ?En.
    - exact ND1.
    - intros u. pcd u t; [exact ND2|apply (c_pop s I)].
    - intros u x. pcd u t; [apply ND3|]. intros H H'. apply EQl in H'. destruct H' as [H'|H']; [exact (c_popl s I u x H H')|exact (c_pop2 s I u t x n H H')].
    - intros u v x N. pcd u t; pcd v t; try congruence.
      + intros H H'. apply EQc in H. destruct H as [H|H]; [exact (c_popl s I v x H' H)|exact (c_pop2 s I t v x N H H')].
      + intros H H'. apply EQc in H'. destruct H' as [H'|H']; [exact (c_popl s I u x H H')|exact (c_pop2 s I u t x N H H')].
      + apply (c_pop2 s I); auto.
    - intros x H. apply EQl in H. destruct H as [H|H]; [exact (c_avail s I x H)|exact (c_availp s I t x H)].
    - intros u x. pcd u t; [|apply (c_availp s I)]. intros H. apply EQc in H. destruct H as [H|H]; [exact (c_avail s I x H)|exact (c_availp s I t x H)].
    - intros u x. pcd u t; [rewrite <- W|]; apply (c_win s I).
    - intros u v x N. pcd u t; pcd v t; try congruence; rewrite <- ?W; apply (c_win2 s I); auto.
    - apply (c_own s I).
    - apply (c_rc s I).
    - apply (c_next s I).
    - apply (c_bound s I).
    - intros x i E U. destruct (c_leak1 s I x i E U) as [H|[u H]].
      + destruct (EQr x (or_introl H)); [auto|]. right. exists t. pcd t t; [auto|congruence].
      + pcd u t; [|right; exists u; pcd u t; [congruence|auto]]. destruct (EQr x (or_intror H)); [auto|]. right. exists t. pcd t t; [auto|congruence].
    - intros x i E U C0. destruct (c_leak2 s I x i E U C0) as [u H]. exists u. pcd u t; [|exact H]. destruct H as [H|H]; [left; apply W; exact H|destruct (NU x H)].
  Qed.

  Lemma popped_facts t x : In x (popped (pcs s t)) -> exists i, items p x = Some i /\ in_use i = false /\ ref_count i = 0 /\ count x (holds s) = 0%nat /\ (forall u, ~ fresh_for (pcs s u) x).
  Proof.
    intros H. destruct (c_availp s I t x H) as (i & E & U). destruct (c_disj' s x i I E U) as [C0 NF]. exists i. split; [exact E|]. split; [exact U|]. split; [|auto]. rewrite (c_rc s I x i E), C0. reflexivity.
  Qed.

  (** an available item is changed, but stays available *)
  Lemma touch_inv t x r : In x (popped (pcs s t)) -> CInv (mkConc (set_item p x (Some (mkItem false r 0))) (pcs s) (holds s)).
  Proof.
    intros Hx. destruct (popped_facts t x Hx) as (i & E & U & R & C0 & NF).
    constructor; sim; try apply I.
    - intros y H. pcd y x; [eauto|]. apply (c_avail s I y H).
    - intros u y H. pcd y x; [eauto|]. apply (c_availp s I u y H).
    - intros u y H. pcd y x; [destruct (NF u H)|]. apply (c_win s I u y H).
    - intros u y H. pcd y x; [exfalso; apply (proj1 (count_zero x (holds s)) C0 u H)|]. apply (c_own s I u y H).
    - intros y j H. pcd y x; [injection H as <-; rewrite C0; reflexivity|]. apply (c_rc s I y j H).
    - intros y H. pcd y x; [rewrite (c_next s I x H) in E; discriminate|]. apply (c_next s I y H).
    - intros y j H Uj. pcd y x; [eauto|]. apply (c_leak1 s I y j H Uj).
    - intros y j H Uj. pcd y x; [injection H as <-; discriminate|]. apply (c_leak2 s I y j H Uj).
  Qed.

  (** a popped item is taken by the allocating thread *)
  Lemma take_inv t x r : popped (pcs s t) = [x] -> (forall y, ~ fresh_for (pcs s t) y) -> (forall y, pcs s t <> UnFree y) ->
    CInv (set_pc s (set_item p x (Some (mkItem true r 0))) t (NewCount x)).
  Proof.
    intros Hx NW NU. assert (Hin : In x (popped (pcs s t))) by (rewrite Hx; left; auto).
    destruct (popped_facts t x Hin) as (i & E & U & R & C0 & NF).
    assert (NL : ~ In x (free p ++ refreshed p)) by (apply (c_popl s I t); auto).
    assert (NO : forall u, u <> t -> ~ In x (popped (pcs s u))) by (intros u N; apply (c_pop2 s I t u x); auto).
    constructor; sim; try apply I.
    - intros u. pcd u t; [constructor|apply I].
    - intros u y. pcd u t; [intros []|apply I].
    - intros u v y N. pcd u t; [intros []|]. pcd v t; [intros _ []|]. apply I; auto.
    - intros y H. pcd y x; [tauto|]. apply (c_avail s I y H).
    - intros u y. pcd u t; [intros []|]. intros H. pcd y x; [destruct (NO u n H)|]. apply (c_availp s I u y H).
    - intros u y. pcd u t.
      + intros [H|H]; [injection H as <-|discriminate]. pcd x x; [eauto|congruence].
      + intros H. pcd y x; [destruct (NF u H)|]. apply (c_win s I u y H).
    - intros u v y N. pcd u t; pcd v t; try congruence.
      + intros [H|H] H2; [injection H as <-|discriminate]. destruct (NF v H2).
      + intros H2 [H|H]; [injection H as <-|discriminate]. destruct (NF u H2).
      + apply (c_win2 s I); auto.
    - intros u y H. pcd y x; [eauto|]. apply (c_own s I u y H).
    - intros y j H. pcd y x; [injection H as <-; rewrite C0; reflexivity|]. apply (c_rc s I y j H).
    - intros y H. pcd y x; [rewrite (c_next s I x H) in E; discriminate|]. apply (c_next s I y H).
    - intros y j H Uj. pcd y x; [injection H as <-; discriminate|]. destruct (c_leak1 s I y j H Uj) as [H'|[u H']]; [auto|]. right. exists u. pcd u t; [|auto]. rewrite Hx in H'. destruct H'; [congruence|tauto].
    - intros y j H Uj Cj. pcd y x; [exists t; pcd t t; [left; left; reflexivity|congruence]|]. destruct (c_leak2 s I y j H Uj Cj) as [u H']. exists u. pcd u t; [|auto]. destruct H' as [H'|H']; [destruct (NW _ H')|destruct (NU _ H')].
  Qed.

  (** a reference is added: by an owner, or by the allocating thread *)
  Lemma ref_inv t x i : items p x = Some i -> in_use i = true -> Z.of_nat (count x (holds s)) < 4294967295 ->
    (forall u, fresh_for (pcs s u) x -> u = t) -> popped (pcs s t) = [] -> (forall y, fresh_for (pcs s t) y -> y = x) -> (forall y, pcs s t <> UnFree y) ->
    CInv (set_holds (set_pc s (set_item p x (Some (mkItem (in_use i) (needs_refresh i) (u32 (ref_count i + 1))))) t Idle) ((t, x) :: holds s)).
  Proof.
    intros E U B F P0 Fx NU. destruct (c_disj s x i I E U) as [NL NP]. pose proof (c_rc s I x i E) as RC.
    constructor; sim; try apply I.
    - intros u. pcd u t; [constructor|apply I].
    - intros u y. pcd u t; [intros []|apply I].
    - intros u v y N. pcd u t; [intros []|]. pcd v t; [intros _ []|]. apply I; auto.
    - intros y H. pcd y x; [tauto|]. apply (c_avail s I y H).
    - intros u y. pcd u t; [intros []|]. intros H. pcd y x; [destruct (NP u H)|]. apply (c_availp s I u y H).
    - intros u y. pcd u t; [intros [H|H]; discriminate|]. intros H. pcd y x; [specialize (F u H); congruence|].
      destruct (c_win s I u y H) as (j & H1 & H2 & H3). exists j. repeat split; auto. rewrite count_cons. destruct (Nat.eqb_spec x y); [congruence|auto].
    - intros u v y N. pcd u t; pcd v t; try congruence; try (intros [H|H]; discriminate); try (intros _ [H|H]; discriminate). apply (c_win2 s I); auto.
    - intros u y [H|H]; [injection H as <- <-; pcd x x; [eauto|congruence]|]. pcd y x; [eauto|]. apply (c_own s I u y H).
    - intros y j H. rewrite count_cons. pcd y x.
      + injection H as <-. cbn [ref_count]. rewrite RC. rewrite Nat.eqb_refl. unfold u32. rewrite Z.mod_small; lia.
      + destruct (Nat.eqb_spec x y); [congruence|]. apply (c_rc s I y j H).
    - intros y H. pcd y x; [rewrite (c_next s I x H) in E; discriminate|]. apply (c_next s I y H).
    - intros y. rewrite count_cons. pose proof (c_bound s I y). destruct (Nat.eqb_spec x y); [subst; lia|lia].
    - intros y j H Uj. pcd y x; [injection H as <-; cbn in Uj; congruence|]. destruct (c_leak1 s I y j H Uj) as [H'|[u H']]; [auto|]. right. exists u. pcd u t; [rewrite P0 in H'; destruct H'|auto].
    - intros y j H Uj. rewrite count_cons. pcd y x; [rewrite Nat.eqb_refl; lia|]. destruct (Nat.eqb_spec x y); [congruence|]. intros Cj.
      destruct (c_leak2 s I y j H Uj Cj) as [u H']. exists u. pcd u t; [|auto]. destruct H' as [H'|H']; [apply Fx in H'; congruence|destruct (NU _ H')].
  Qed.

  Lemma unref_inv t x i : items p x = Some i -> In (t, x) (holds s) -> popped (pcs s t) = [] -> (forall y, ~ fresh_for (pcs s t) y) -> (forall y, pcs s t <> UnFree y) ->
    CInv (set_holds (set_pc s (set_item p x (Some (mkItem (in_use i) (needs_refresh i) (ref_count i - 1)))) t (UnFree x)) (drop1 (holds s) (t, x))).
  Proof.
    intros E O P0 NW NU. destruct (c_own s I t x O) as (i' & E' & U). rewrite E in E'. injection E' as <-.
    destruct (c_disj s x i I E U) as [NL NP]. pose proof (c_rc s I x i E) as RC. pose proof (count_drop x t x (holds s) O) as CX. rewrite Nat.eqb_refl in CX.
    assert (CO : forall y, y <> x -> count y (drop1 (holds s) (t, x)) = count y (holds s)).
    { intros y N. rewrite (count_drop y t x (holds s) O). destruct (Nat.eqb_spec x y); [congruence|reflexivity]. }
    assert (NF : forall u, ~ fresh_for (pcs s u) x) by (intros u H; destruct (c_win s I u x H) as (_ & _ & _ & Z); lia).
    constructor; sim; try apply I.
    - intros u. pcd u t; [constructor|apply I].
    - intros u y. pcd u t; [intros []|apply I].
    - intros u v y N. pcd u t; [intros []|]. pcd v t; [intros _ []|]. apply I; auto.
    - intros y H. pcd y x; [tauto|]. apply (c_avail s I y H).
    - intros u y. pcd u t; [intros []|]. intros H. pcd y x; [destruct (NP u H)|]. apply (c_availp s I u y H).
    - intros u y. pcd u t; [intros [H|H]; discriminate|]. intros H. pcd y x; [destruct (NF u H)|].
      destruct (c_win s I u y H) as (j & H1 & H2 & H3). exists j. repeat split; auto. rewrite CO by auto. auto.
    - intros u v y N. pcd u t; pcd v t; try congruence; try (intros [H|H]; discriminate); try (intros _ [H|H]; discriminate). apply (c_win2 s I); auto.
    - intros u y H. apply drop_in in H. pcd y x; [eauto|]. apply (c_own s I u y H).
    - intros y j H. pcd y x; [injection H as <-; cbn [ref_count]; lia|]. rewrite CO by auto. apply (c_rc s I y j H).
    - intros y H. pcd y x; [rewrite (c_next s I x H) in E; discriminate|]. apply (c_next s I y H).
    - intros y. pose proof (c_bound s I y). pcd y x; [lia|]. rewrite CO by auto. auto.
    - intros y j H Uj. pcd y x; [injection H as <-; cbn in Uj; congruence|]. destruct (c_leak1 s I y j H Uj) as [H'|[u H']]; [auto|]. right. exists u. pcd u t; [rewrite P0 in H'; destruct H'|auto].
    - intros y j H Uj Cj. pcd y x; [exists t; pcd t t; [right; reflexivity|congruence]|]. rewrite CO in Cj by auto.
      destruct (c_leak2 s I y j H Uj Cj) as [u H']. exists u. pcd u t; [|auto]. destruct H' as [H'|H']; [destruct (NW _ H')|destruct (NU _ H')].
  Qed.

  Lemma give_inv t x u : In (t, x) (holds s) -> CInv (set_holds s ((u, x) :: drop1 (holds s) (t, x))).
  Proof.
    intros O. assert (CE : forall y, count y ((u, x) :: drop1 (holds s) (t, x)) = count y (holds s)).
    { intros y. rewrite count_cons, (count_drop y t x (holds s) O). reflexivity. }
    constructor; sim; try apply I.
    - intros v y H. rewrite CE. apply (c_win s I v y H).
    - intros v y [H|H]; [injection H as <- <-; apply (c_own s I t x O)|]. apply drop_in in H. apply (c_own s I v y H).
    - intros y i H. rewrite CE. apply (c_rc s I y i H).
    - intros y. rewrite CE. apply (c_bound s I).
    - intros y i H U. rewrite CE. apply (c_leak2 s I y i H U).
  Qed.

  (** recycling *)
  Lemma recycle_inv t x i q r : items p x = Some i -> in_use i = true -> ref_count i = 0 -> (forall u, ~ fresh_for (pcs s u) x) ->
    pcs s t = UnFree x -> items q = items (set_item p x (Some (mkItem false r 0))) -> next q = next p ->
    Permutation (x :: free p ++ refreshed p) (free q ++ refreshed q) -> CInv (set_pc s q t UnCount).
  Proof.
    intros E U R NF Pt Ei En PM. destruct (c_disj s x i I E U) as [NL NP]. pose proof (c_rc s I x i E) as RC.
    assert (C0 : count x (holds s) = 0%nat) by lia.
    assert (IN : forall y, In y (free q ++ refreshed q) <-> y = x \/ In y (free p ++ refreshed p)).
    { intros y. split; [intros H; apply (Permutation_in _ (Permutation_sym PM)) in H; destruct H; auto|]. intros H. apply (Permutation_in _ PM). destruct H; [left|right]; auto. }
    constructor; sim; rewrite ?Ei, ?En; sim.
    - apply (Permutation_NoDup PM). constructor; auto. apply I.
    - intros u. pcd u t; [constructor|apply I].
    - intros u y. pcd u t; [intros []|]. rewrite IN. intros H [->|H']; [exact (NP u H)|exact (c_popl s I u y H H')].
    - intros u v y N. pcd u t; [intros []|]. pcd v t; [intros _ []|]. apply I; auto.
    - intros y. rewrite IN. intros H. pcd y x; [eauto|]. apply (c_avail s I y). destruct H; [congruence|auto].
    - intros u y. pcd u t; [intros []|]. intros H. pcd y x; [destruct (NP u H)|]. apply (c_availp s I u y H).
    - intros u y. pcd u t; [intros [H|H]; discriminate|]. intros H. pcd y x; [destruct (NF u H)|]. apply (c_win s I u y H).
    - intros u v y N. pcd u t; pcd v t; try congruence; try (intros [H|H]; discriminate); try (intros _ [H|H]; discriminate). apply (c_win2 s I); auto.
    - intros u y H. pcd y x; [destruct (proj1 (count_zero x (holds s)) C0 u H)|]. apply (c_own s I u y H).
    - intros y j H. pcd y x; [injection H as <-; rewrite C0; reflexivity|]. apply (c_rc s I y j H).
    - intros y H. pcd y x; [rewrite (c_next s I x H) in E; discriminate|]. apply (c_next s I y H).
    - apply (c_bound s I).
    - intros y j H Uj. rewrite IN. pcd y x; [auto|]. destruct (c_leak1 s I y j H Uj) as [H'|[u H']]; [auto|]. right. exists u. pcd u t; [rewrite Pt in H'; destruct H'|auto].
    - intros y j H Uj Cj. pcd y x; [injection H as <-; discriminate|]. destruct (c_leak2 s I y j H Uj Cj) as [u H']. exists u. pcd u t; [|auto].
      rewrite Pt in H'. destruct H' as [[H'|H']|H']; congruence.
  Qed.
  (** the check finds the object still referenced, or already recycled *)
  Lemma keep_inv t x i : items p x = Some i -> pcs s t = UnFree x -> (in_use i = true -> ref_count i <> 0) -> CInv (set_pc s p t Idle).
  Proof.
    intros E Pt NR. pose proof (c_rc s I x i E) as RC.
    constructor; sim; try apply I.
    - intros u. pcd u t; [constructor|apply I].
    - intros u y. pcd u t; [intros []|apply I].
    - intros u v y N. pcd u t; [intros []|]. pcd v t; [intros _ []|]. apply I; auto.
    - intros u y. pcd u t; [intros []|apply I].
    - intros u y. pcd u t; [intros [H|H]; discriminate|apply I].
    - intros u v y N. pcd u t; pcd v t; try congruence; try (intros [H|H]; discriminate); try (intros _ [H|H]; discriminate). apply (c_win2 s I); auto.
    - intros y j H Uj. destruct (c_leak1 s I y j H Uj) as [H'|[u H']]; [auto|]. right. exists u. pcd u t; [rewrite Pt in H'; destruct H'|auto].
    - intros y j H Uj Cj. destruct (c_leak2 s I y j H Uj Cj) as [u H']. exists u. pcd u t; [|auto]. rewrite Pt in H'. destruct H' as [[H'|H']|H']; try congruence.
      injection H' as ->. rewrite E in H. injection H as <-. specialize (NR Uj). lia.
  Qed.

  Lemma delete_inv t x q : popped (pcs s t) = [x] -> (forall y, ~ fresh_for (pcs s t) y) -> (forall y, pcs s t <> UnFree y) ->
    items q = items (set_item p x None) -> next q = next p -> free q = free p -> refreshed q = refreshed p -> CInv (set_pc s q t Idle).
  Proof.
    intros Hx NW NU Ei En Ef Er. assert (Hin : In x (popped (pcs s t))) by (rewrite Hx; left; auto).
    destruct (popped_facts t x Hin) as (i & E & U & R & C0 & NF).
    assert (NL : ~ In x (free p ++ refreshed p)) by (apply (c_popl s I t); auto).
    assert (NO : forall u, u <> t -> ~ In x (popped (pcs s u))) by (intros u N; apply (c_pop2 s I t u x); auto).
    constructor; sim; rewrite ?Ei, ?En, ?Ef, ?Er; sim; try apply I.
    - intros u. pcd u t; [constructor|apply I].
    - intros u y. pcd u t; [intros []|apply I].
    - intros u v y N. pcd u t; [intros []|]. pcd v t; [intros _ []|]. apply I; auto.
    - intros y H. pcd y x; [tauto|]. apply (c_avail s I y H).
    - intros u y. pcd u t; [intros []|]. intros H. pcd y x; [destruct (NO u n H)|]. apply (c_availp s I u y H).
    - intros u y. pcd u t; [intros [H|H]; discriminate|]. intros H. pcd y x; [destruct (NF u H)|]. apply (c_win s I u y H).
    - intros u v y N. pcd u t; pcd v t; try congruence; try (intros [H|H]; discriminate); try (intros _ [H|H]; discriminate). apply (c_win2 s I); auto.
    - intros u y H. pcd y x; [destruct (proj1 (count_zero x (holds s)) C0 u H)|]. apply (c_own s I u y H).
    - intros y j H. pcd y x; [discriminate|]. apply (c_rc s I y j H).
    - intros y H. pcd y x; [reflexivity|]. apply (c_next s I y H).
    - intros y j H Uj. pcd y x; [discriminate|]. destruct (c_leak1 s I y j H Uj) as [H'|[u H']]; [auto|]. right. exists u. pcd u t; [|auto]. rewrite Hx in H'. destruct H'; [congruence|tauto].
    - intros y j H Uj Cj. pcd y x; [discriminate|]. destruct (c_leak2 s I y j H Uj Cj) as [u H']. exists u. pcd u t; [|auto]. destruct H' as [H'|H']; [destruct (NW _ H')|destruct (NU _ H')].
  Qed.

  Lemma grow_inv : CInv (mkConc (increase1 p) (pcs s) (holds s)).
  Proof.
    assert (NX : items p (next p) = None) by (apply (c_next s I); auto).
    assert (NL : ~ In (next p) (free p ++ refreshed p)) by (intros H; destruct (c_avail s I _ H) as (i & E & _); congruence).
    assert (NP : forall t, ~ In (next p) (popped (pcs s t))) by (intros t H; destruct (c_availp s I _ _ H) as (i & E & _); congruence).
    assert (IN : forall y, In y ((free p ++ [next p]) ++ refreshed p) <-> y = next p \/ In y (free p ++ refreshed p)).
    { intros y. rewrite !in_app_iff. cbn [In]. intuition. }
    constructor; cbn [cpool pcs holds increase1 items free refreshed next set_item]; try apply I.
    - rewrite <- app_assoc. cbn [app]. apply NoDup_Add with (a := next p) (l := free p ++ refreshed p); [apply Add_app|]. split; [apply I|auto].
    - intros t x H. rewrite IN. intros [->|H']; [exact (NP t H)|exact (c_popl s I t x H H')].
    - intros x. rewrite IN. intros H. pcd x (next p); [eauto|]. apply (c_avail s I). destruct H; [congruence|auto].
    - intros t x H. pcd x (next p); [destruct (NP t H)|]. apply (c_availp s I t x H).
    - intros t x H. pcd x (next p); [destruct (c_win s I t _ H) as (i & E & _); congruence|]. apply (c_win s I t x H).
    - intros t x H. pcd x (next p); [destruct (c_own s I t _ H) as (i & E & _); congruence|]. apply (c_own s I t x H).
    - intros x i H. pcd x (next p).
      + injection H as <-. cbn. assert (Z : count (next p) (holds s) = 0%nat); [|rewrite Z; reflexivity]. apply count_zero. intros t H. destruct (c_own s I t _ H) as (i & E & _). congruence.
      + apply (c_rc s I x i H).
    - intros x H. pcd x (next p); [lia|]. apply (c_next s I). lia.
    - intros x i H U. rewrite IN. pcd x (next p); [auto|]. destruct (c_leak1 s I x i H U); auto.
    - intros x i H U. pcd x (next p); [injection H as <-; discriminate|]. apply (c_leak2 s I x i H U).
  Qed.
End Steps.

Lemma cinv_pcs p f g h : (forall u, f u = g u) -> CInv (mkConc p f h) -> CInv (mkConc p g h).
Proof.
  intros E [H1 H2 H3 H4 H5 H6 H7 H8 H9 H10 H11 H12 H13 H14]. sim. constructor; sim; auto.
  - intros t. rewrite <- E. auto.
  - intros t x. rewrite <- E. apply H3.
  - intros t u x. rewrite <- !E. apply H4.
  - intros t x. rewrite <- E. apply H6.
  - intros t x. rewrite <- E. apply H7.
  - intros t u x. rewrite <- !E. apply H8.
  - intros x i A B. destruct (H13 _ _ A B) as [?|[u ?]]; [auto|]. right. exists u. rewrite <- E. auto.
  - intros x i A B C. destruct (H14 _ _ A B C) as [u ?]. exists u. rewrite <- E. auto.
Qed.

(** ** every benign step keeps the invariant; in particular it is not undefined and does not abort *)
Lemma refresh_ok s t x : CInv s -> In x (popped (pcs s t)) -> exists q, refresh (cpool s) x = Ok q /\ CInv (mkConc q (pcs s) (holds s)) /\ free q = free (cpool s) /\ refreshed q = refreshed (cpool s).
Proof.
  intros I Hx. destruct (popped_facts s I t x Hx) as (i & E & U & R & C0 & NF). unfold refresh. rewrite E, U. cbn [negb andb].
  destruct (needs_refresh i); [|exists (cpool s); split; [auto|]; split; [destruct s; exact I|auto]].
  eexists. split; [reflexivity|]. destruct (has_refresh (cpool s)); (split; [|split; reflexivity]).
  - eapply cinv_ext; [..|exact (touch_inv s I t x false Hx)]; reflexivity.
  - exact (touch_inv s I t x false Hx).
Qed.
Lemma fresh_idle x : fresh_for Idle x <-> False. Proof. split; [intros [H|H]; discriminate|tauto]. Qed.

Lemma step_inv s t a : CInv s -> benign s t a -> step_ok s t a.
Proof.
  intros I B. unfold step_ok, step. destruct (pcs s t) eqn:Pt; destruct a; auto; try (destruct l; auto; fail).
  - (* allocate from the refreshed list *)
    unfold pop_refreshed. destruct (refreshed (cpool s)) as [|x l] eqn:E; auto.
    apply (move_inv s I); auto; rewrite ?Pt; try (intros; split; intros [H|H]; discriminate); try discriminate.
    cbn [popped]. rewrite E. cbn. rewrite app_nil_r. apply Permutation_app_head. apply Permutation_cons_append.
  - unfold pop_free. destruct (free (cpool s)) as [|x l] eqn:E; auto.
    apply (move_inv s I); auto; rewrite ?Pt; try (intros; split; intros [H|H]; discriminate); try discriminate.
    cbn [popped]. rewrite E. cbn. rewrite app_nil_r. rewrite app_assoc. apply Permutation_cons_append.
  - (* new memory *)
    apply cinv_pcs with (f := pcs s); [|apply (grow_inv s I)]. intros u. destruct (Nat.eq_dec u t); congruence.
  - (* reference *)
    unfold owns. destruct (in_dec pair_dec (t, x) (holds s)) as [O|]; auto.
    destruct (c_own s I t x O) as (i & E & U). unfold ref_obj. rewrite E. cbn [obind].
    apply (ref_inv s I); auto; rewrite ?Pt; try discriminate; auto.
    + unfold benign in B. rewrite Pt in B. exact B.
    + intros u H. destruct (c_win s I u x H) as (_ & _ & _ & Z). exfalso. exact (proj1 (count_zero x (holds s)) Z t O).
    + intros y H. apply fresh_idle in H. destruct H.
  - (* release *)
    unfold owns. destruct (in_dec pair_dec (t, x) (holds s)) as [O|]; auto.
    destruct (c_own s I t x O) as (i & E & U). unfold dec_ref. rewrite E. pose proof (c_rc s I x i E) as RC. pose proof (count_drop x t x (holds s) O) as CX. rewrite Nat.eqb_refl in CX.
    destruct (Z.eqb_spec (ref_count i) 0); [lia|]. cbn [obind].
    apply (unref_inv s I); auto; rewrite ?Pt; try discriminate; auto. intros y H. apply fresh_idle in H. destruct H.
  - unfold owns. destruct (in_dec pair_dec (t, x) (holds s)) as [O|]; auto. apply (give_inv s I); auto.
  - apply (move_inv s I); auto; rewrite ?Pt; try (intros; split; intros [H|H]; discriminate); try discriminate.
    cbn [popped free refreshed set_free]. rewrite app_nil_r. rewrite <- (firstn_skipn n (free (cpool s))) at 1. rewrite <- app_assoc, Permutation_app_comm, <- app_assoc. reflexivity.
  - unfold pop_free. destruct (free (cpool s)) as [|x l] eqn:E; auto.
    apply (move_inv s I); auto; rewrite ?Pt; try (intros; split; intros [H|H]; discriminate); try discriminate.
    cbn [popped]. rewrite E. cbn. rewrite app_nil_r. rewrite app_assoc. apply Permutation_cons_append.
  - unfold pop_refreshed. destruct (refreshed (cpool s)) as [|x l] eqn:E; auto.
    apply (move_inv s I); auto; rewrite ?Pt; try (intros; split; intros [H|H]; discriminate); try discriminate.
    cbn [popped]. rewrite E. cbn. rewrite app_nil_r. apply Permutation_app_head. apply Permutation_cons_append.
  - (* refresh before use *)
    destruct (refresh_ok s t x I) as (q & E & I' & F1 & F2); [rewrite Pt; left; auto|]. rewrite E. cbn [obind].
    change (CInv (set_pc (mkConc q (pcs s) (holds s)) q t (NewCheck x))). apply (move_inv _ I'); auto; cbn [pcs cpool]; rewrite ?Pt; try (intros; split; intros [H|H]; discriminate); try discriminate. reflexivity.
  - (* take *)
    destruct (popped_facts s I t x) as (i & E & U & R & C0 & NF); [rewrite Pt; left; auto|]. unfold try_take. rewrite E, U, R. cbn [obind].
    apply (take_inv s I); rewrite ?Pt; auto; try discriminate. intros y [H|H]; discriminate.
  - (* count *)
    apply (move_inv s I); auto; rewrite ?Pt; try discriminate; auto. intros y. split; intros [H|H]; try discriminate; injection H as <-; [right|left]; reflexivity.
  - (* first reference *)
    destruct (c_win s I t x) as (i & E & U & C0); [rewrite Pt; right; auto|]. unfold ref_obj. rewrite E. cbn [obind].
    apply (ref_inv s I); auto; rewrite ?Pt; try discriminate; auto.
    + lia.
    + intros u H. destruct (Nat.eq_dec u t); auto. exfalso. apply (c_win2 s I u t x); auto. rewrite Pt. right. auto.
    + intros y [H|H]; [discriminate|]. injection H. auto.
  - (* recycle? *)
    unfold benign in B. rewrite Pt in B. destruct B as [B1 B2]. unfold free_check. destruct (items (cpool s) x) as [i|] eqn:E; [|congruence].
    destruct (Z.eqb_spec (ref_count i) 0) as [R|R]; cbn [andb]; [destruct (in_use i) eqn:U|]; cbn [obind].
    + destruct (has_refresh (cpool s)).
      * apply (recycle_inv s I t x i _ true); auto; cbn; rewrite ?R; auto. rewrite <- app_assoc. cbn. apply Permutation_middle.
      * apply (recycle_inv s I t x i _ (needs_refresh i)); auto; cbn; rewrite ?R; auto. rewrite app_assoc. apply Permutation_cons_append.
    + apply (keep_inv s I t x i); auto. congruence.
    + apply (keep_inv s I t x i); auto.
  - apply (move_inv s I); auto; rewrite ?Pt; try (intros; split; intros [H|H]; discriminate); try discriminate. reflexivity.
  - (* management *)
    destruct l as [|x l].
    + apply (move_inv s I); auto; rewrite ?Pt; try (intros; split; intros [H|H]; discriminate); try discriminate. reflexivity.
    + destruct (refresh_ok s t x I) as (q & E & I' & F1 & F2); [rewrite Pt; left; auto|]. rewrite E. cbn [obind].
      change (CInv (set_pc (mkConc q (pcs s) (holds s)) q t (MAppend x l))). apply (move_inv _ I'); auto; cbn [pcs cpool]; rewrite ?Pt; try (intros; split; intros [H|H]; discriminate); try discriminate. reflexivity.
  - apply (move_inv s I); auto; rewrite ?Pt; try (intros; split; intros [H|H]; discriminate); try discriminate.
    cbn [popped free refreshed set_refreshed]. rewrite <- app_assoc. reflexivity.
  - destruct (popped_facts s I t x) as (i & E & U & R & C0 & NF); [rewrite Pt; left; auto|]. unfold delete. rewrite E, U. cbn [obind].
    apply (delete_inv s I t x); rewrite ?Pt; auto; try discriminate. intros y [H|H]; discriminate.
Qed.

Lemma run_inv l : forall s, CInv s -> benign_run s l -> match run s l with None => True | Some (Ok s') => CInv s' | Some _ => False end.
Proof.
  induction l as [|[t a] l IH]; intros s I B; cbn [run]; auto. destruct B as [B1 B2]. pose proof (step_inv s t a I B1) as H. unfold step_ok in H.
  revert H B2. destruct (step s t a) as [[s'| |]|]; intros H B2; auto; try tauto. apply IH; auto.
Qed.
Lemma safe_of_inv s : CInv s -> owner_safe s.
Proof.
  intros I t x H. destruct (c_own s I t x H) as (i & E & U). destruct (c_disj s x i I E U) as [N1 N2]. rewrite in_app_iff in N1.
  assert (C0 : count x (holds s) <> 0%nat) by (intros Z; exact (proj1 (count_zero x (holds s)) Z t H)).
  split; [exists i; rewrite (c_rc s I x i E); repeat split; auto; lia|]. split; [tauto|]. split; [tauto|]. intros u. split; auto.
  intros F. destruct (c_win s I u x F) as (_ & _ & _ & Z). tauto.
Qed.
