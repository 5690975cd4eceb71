(** The routing table under all schedules of the handlers. *)
From Verif Require Import Base Dhkey_Model Dhkey_Spec Dhkey_Proofs Keycache_Model Keycache_Spec Keycache_Proofs Route_Model Route_Spec Route_Proofs Route_Leaf Route_Hist.

Definition stored (r : route) (o : Z) : Prop := In o (map snd (np_route_get_table r)).
(** The writes [false] that are still to come *)
Definition falses (ths : list (node * list action)) : list Z :=
  flat_map (fun th => flat_map (fun a => match a with ASet x false => [snd x] | _ => [] end) (snd th)) ths.
(** The write [true] of a handler is still to come *)
Definition to_true (ths : list (node * list action)) (o : Z) : Prop :=
  exists n acts, In (n, acts) ths /\ snd n = o /\ In (ASet n true) acts.
Definition shape (ns : list node) (th : node * list action) : Prop :=
  let n := fst th in In n ns /\
  (snd th = [AJoin n] \/ snd th = [ALeave n] \/ snd th = [ASet n true] \/ exists x, In x ns /\ (snd th = [ASet x false] \/ snd th = [ASet n true; ASet x false])).
Definition SInv (ns : list node) (s : sched) : Prop :=
  All ns (srt s) /\ NoDup (map fst (np_route_get_table (srt s))) /\
  Forall (shape ns) (threads s) /\ NoDup (map (fun th => snd (fst th)) (threads s)) /\ NoDup (falses (threads s)) /\
  (forall o, stored (srt s) o -> sflag s o = true \/ to_true (threads s) o) /\
  (forall o, In o (falses (threads s)) -> ~ stored (srt s) o /\ (sflag s o = true \/ to_true (threads s) o)) /\
  (forall n, In (n, [AJoin n]) (threads s) -> ~ stored (srt s) (snd n) /\ ~ In (snd n) (falses (threads s))).

Lemma falses_app a b : falses (a ++ b) = falses a ++ falses b.
Proof. unfold falses. apply flat_map_app. Qed.
Lemma busy_spec ths (n : node) : busy ths n = false <-> ~ In (snd n) (map (fun th => snd (fst th)) ths).
Proof.
  unfold busy. rewrite <- not_true_iff_false, existsb_exists, in_map_iff. split; intros H C; apply H; destruct C as (th & A & B); exists th.
  - rewrite A. split; [exact B|apply Z.eqb_refl].
  - split; [lia|exact A].
Qed.
Lemma to_true_app a b o : to_true (a ++ b) o <-> to_true a o \/ to_true b o.
Proof.
  unfold to_true. split.
  - intros (n & acts & H & R). apply in_app_iff in H. destruct H; [left|right]; eauto.
  - intros [(n & acts & H & R)|(n & acts & H & R)]; exists n, acts; rewrite in_app_iff; tauto.
Qed.
Lemma to_true_owner ths o : to_true ths o -> In o (map (fun th => snd (fst th)) ths).
Proof. intros (n & acts & H & <- & _). apply in_map_iff. exists (n, acts). auto. Qed.

Lemma start_ok ns s n act : (act = AJoin n \/ act = ALeave n) -> SInv ns s -> In n ns -> busy (threads s) n = false ->
  (act = AJoin n -> sflag s (snd n) = false) -> SInv ns (mkSched (srt s) (sflag s) (threads s ++ [(n, [act])])).
Proof.
  intros Ha (A & D & Sh & O & DF & I2 & I3 & I4) Hn B Fl. apply busy_spec in B. unfold SInv. cbn [srt sflag threads].
  assert (EF : falses (threads s ++ [(n, [act])]) = falses (threads s)) by (rewrite falses_app; destruct Ha as [-> | ->]; cbn; apply app_nil_r).
  assert (TT : forall o, to_true (threads s) o -> to_true (threads s ++ [(n, [act])]) o) by (intros o H; apply to_true_app; auto).
  rewrite EF. split; [exact A|]. split; [exact D|]. split.
  { apply Forall_app. split; [exact Sh|]. constructor; [|constructor]. split; [exact Hn|]. destruct Ha as [-> | ->]; cbn; auto. }
  split. { rewrite map_app. cbn. eapply Permutation_NoDup; [apply Permutation_cons_append|]. constructor; auto. }
  split; [exact DF|]. split; [intros o H; destruct (I2 o H); auto|]. split; [intros o H; destruct (I3 o H) as [H1 [H2|H2]]; auto|].
  intros m Hm. apply in_app_iff in Hm. destruct Hm as [Hm|[Hm|[]]]; [auto|].
  assert (m = n /\ act = AJoin n) by (split; congruence). destruct H as [-> ->]. specialize (Fl eq_refl).
  assert (NT : ~ to_true (threads s) (snd n)) by (intros C; apply B; apply to_true_owner; exact C). split.
  - intros C. destruct (I2 _ C); [congruence|contradiction].
  - intros C. destruct (I3 _ C) as [_ [H|H]]; [congruence|contradiction].
Qed.

Lemma new_thread ths i n acts acts' : nth_error ths i = Some (n, acts) ->
  exists a b, ths = a ++ (n, acts) :: b /\ replace_thread ths i n acts' = a ++ (match acts' with [] => [] | _ => [(n, acts')] end) ++ b.
Proof.
  intros E. destruct (nth_error_split _ _ E) as (a & b & -> & <-). exists a, b. split; [reflexivity|]. unfold replace_thread.
  rewrite firstn_app, Nat.sub_diag, firstn_all, firstn_O, app_nil_r. f_equal. f_equal.
  rewrite skipn_app. rewrite skipn_all2 by lia. replace (S (length a) - length a)%nat with 1%nat by lia. reflexivity.
Qed.
Lemma shape_tail ns ths i n acts : Forall (shape ns) ths -> nth_error ths i = Some (n, acts) -> shape ns (n, acts).
Proof. intros F E. rewrite Forall_forall in F. apply F. eapply nth_error_In. exact E. Qed.

(** The parts of the list of threads around one thread *)
Lemma parts ns s a b n acts : SInv ns s -> threads s = a ++ (n, acts) :: b ->
  Forall (shape ns) (a ++ b) /\ ~ In (snd n) (map (fun th => snd (fst th)) (a ++ b)) /\ NoDup (map (fun th => snd (fst th)) (a ++ b)) /\
  (forall o, to_true (threads s) o <-> to_true (a ++ b) o \/ to_true [(n, acts)] o) /\
  Permutation (falses (threads s)) (falses [(n, acts)] ++ falses (a ++ b)).
Proof.
  intros (A & D & Sh & O & DF & I2 & I3 & I4) E. rewrite E in *. split.
  { apply Forall_app in Sh. destruct Sh as [S1 S2]. inversion S2; subst. apply Forall_app. auto. }
  rewrite map_app in O. cbn in O. pose proof (NoDup_remove_1 _ _ _ O) as O1. pose proof (NoDup_remove_2 _ _ _ O) as O2. rewrite <- map_app in O1, O2.
  split; [exact O2|]. split; [exact O1|]. split.
  - intros o. change ((n, acts) :: b) with ([(n, acts)] ++ b). rewrite !to_true_app. tauto.
  - change ((n, acts) :: b) with ([(n, acts)] ++ b). rewrite !falses_app, !app_assoc. apply Permutation_app_tail. apply Permutation_app_comm.
Qed.

(** A thread with the remaining actions [acts'], which is gone when there are none *)
Definition rest_of (n : node) (acts : list action) : list (node * list action) := match acts with [] => [] | _ => [(n, acts)] end.
Lemma assemble ns s a b n acts' r f : proper ns -> In n ns -> All ns r -> NoDup (map fst (np_route_get_table r)) -> Forall (shape ns) (a ++ b) ->
  ~ In (snd n) (map (fun th => snd (fst th)) (a ++ b)) -> NoDup (map (fun th => snd (fst th)) (a ++ b)) ->
  (acts' = [] \/ acts' = [ASet n true] \/ exists x, In x ns /\ (acts' = [ASet x false] \/ acts' = [ASet n true; ASet x false])) ->
  NoDup (falses (rest_of n acts' ++ a ++ b)) ->
  (forall o, stored r o -> f o = true \/ to_true (rest_of n acts' ++ a ++ b) o) ->
  (forall o, In o (falses (rest_of n acts' ++ a ++ b)) -> ~ stored r o /\ (f o = true \/ to_true (rest_of n acts' ++ a ++ b) o)) ->
  (forall m, In (m, [AJoin m]) (a ++ b) -> ~ stored r (snd m) /\ ~ In (snd m) (falses (rest_of n acts' ++ a ++ b))) ->
  s = mkSched r f (a ++ rest_of n acts' ++ b) -> SInv ns s.
Proof.
  intros PR Hn A D Sh O1 O2 SA DF I2 I3 I4 ->. unfold SInv. cbn [srt sflag threads].
  assert (PT : Permutation (a ++ rest_of n acts' ++ b) (rest_of n acts' ++ a ++ b)) by (rewrite !app_assoc; apply Permutation_app_tail; apply Permutation_app_comm).
  assert (PF : Permutation (falses (a ++ rest_of n acts' ++ b)) (falses (rest_of n acts' ++ a ++ b))) by (unfold falses; apply Permutation_flat_map; exact PT).
  assert (TT : forall o, to_true (rest_of n acts' ++ a ++ b) o -> to_true (a ++ rest_of n acts' ++ b) o) by (intros o; rewrite !to_true_app; tauto).
  split; [exact A|]. split; [exact D|]. split.
  { rewrite PT. apply Forall_app. split; [|exact Sh]. unfold rest_of. destruct acts' as [|x l]; [constructor|]. constructor; [|constructor].
    split; [exact Hn|]. cbn [fst snd]. destruct SA as [SA|[SA|SA]]; [discriminate|auto|auto]. }
  split. { eapply Permutation_NoDup; [symmetry; apply Permutation_map; exact PT|]. rewrite map_app. unfold rest_of. destruct acts'; [exact O2|]. cbn. constructor; auto. }
  split. { eapply Permutation_NoDup; [symmetry; exact PF|exact DF]. }
  split; [intros o H; destruct (I2 o H); auto|].
  split; [intros o H; rewrite PF in H; destruct (I3 o H) as [H1 [H2|H2]]; auto|].
  intros m Hm. rewrite PT in Hm. rewrite PF. apply in_app_iff in Hm. destruct Hm as [Hm|Hm]; [|auto].
  exfalso. unfold rest_of in Hm. destruct acts' as [|x l]; [destruct Hm|]. destruct Hm as [Hm|[]]. assert (x :: l = [AJoin m]) by congruence.
  destruct SA as [SA|[SA|(y & _ & [SA|SA])]]; congruence.
Qed.

Lemma update_stored me lat n j T T' d a : table_effect me lat n j T T' d a ->
  (forall o, In o (map snd T') -> In o (map snd T) \/ a = Some n /\ o = snd n) /\ (a = None \/ a = Some n /\ j = true).
Proof.
  intros E. destruct E as [| |? ? L P|? ? ? ? L I N M G P1 P2| |? ? x rest P1 Ex P2|]; (split; [intros o Ho|auto]); auto.
  - apply (Permutation_map snd) in P. rewrite P in Ho. destruct Ho as [<-|Ho]; auto.
  - apply (Permutation_map snd) in P1, P2. rewrite P2 in Ho. destruct Ho as [<-|Ho]; auto. left. rewrite P1. right. exact Ho.
  - apply (Permutation_map snd) in P1, P2. rewrite P2 in Ho. left. rewrite P1. right. exact Ho.
Qed.

Lemma sched_step_ok ns s c : proper ns -> SInv ns s -> incl (choice_node c) ns -> exists s', sched_step s c = Ok s' /\ SInv ns s' /\ my (srt s') = my (srt s).
Proof.
  intros PR HS HI. pose proof HS as (A & D & Sh & O & DF & I2 & I3 & I4). pose proof A as (_ & _ & (W1 & _) & _). destruct c as [n|n|i lat]; cbn [sched_step choice_node] in *.
  - assert (Hn : In n ns) by (apply HI; left; reflexivity). destruct (busy (threads s) n) eqn:B; [exists s; auto|]. cbn [orb].
    destruct (sflag s (snd n)) eqn:Fl; [exists s; auto|]. eexists. split; [reflexivity|]. split; [|reflexivity]. apply start_ok; auto.
  - assert (Hn : In n ns) by (apply HI; left; reflexivity). destruct (busy (threads s) n) eqn:B; [exists s; auto|]. cbn [orb].
    destruct (sflag s (snd n)) eqn:Fl; cbn [negb]; [|exists s; auto]. eexists. split; [reflexivity|]. split; [|reflexivity]. apply start_ok; auto. discriminate.
  - destruct (nth_error (threads s) i) as [[n [|[x|x|x v] acts]]|] eqn:E; try (exists s; auto; fail).
    + destruct (shape_tail _ _ _ _ _ Sh E) as [Hn SA]. cbn [fst snd] in *.
      assert (x = n /\ acts = []) by (destruct SA as [SA|[SA|[SA|(y & _ & [SA|SA])]]]; split; congruence). destruct H as [-> ->].
      destruct (all_update ns (srt s) n true lat PR A Hn) as (r' & d & a & -> & A' & SR & TE). cbn [obind fst snd]. rewrite app_nil_r.
      destruct (new_thread (threads s) i n [AJoin n] (writes d a) E) as (pa & pb & Et & Er). rewrite Er. clear Er.
      destruct (parts ns s pa pb n [AJoin n] HS Et) as (Sh' & O1 & O2 & TT & PF). cbn [falses flat_map app snd] in PF.
      assert (NJ : ~ stored (srt s) (snd n) /\ ~ In (snd n) (falses (threads s))) by (apply I4; rewrite Et, in_app_iff; right; left; reflexivity).
      destruct NJ as [NS NF].
      assert (NTn : forall o, to_true [(n, [AJoin n])] o -> False) by (intros o (m & ac & [H|[]] & _ & H2); assert (ac = [AJoin n]) by congruence; subst ac; destruct H2 as [H2|[]]; discriminate).
      assert (ND : ~ In (fst n) (map fst (np_route_get_table (srt s)))) by (rewrite (keys_objects ns) by auto; exact NS).
      destruct (update_stored _ _ _ _ _ _ _ _ TE) as [US UA].
      assert (Dd : match d with Some x => In x (np_route_get_table (srt s)) /\ a = Some n /\ ~ stored r' (snd x) /\ snd x <> snd n | None => True end).
      { destruct d as [x|]; [|exact I]. inversion TE as [| | |? ? ? rest H1 H2 H3 H4 H5 P1 P2| | |]; subst. apply filter_In in H2.
        split; [apply H2|]. split; [reflexivity|]. assert (NX : snd x <> snd n) by (intros C; apply NS; unfold stored; rewrite <- C; apply in_map; apply H2).
        split; [|exact NX]. unfold stored. rewrite (Permutation_map snd P2). cbn. intros [C|C]; [congruence|].
        pose proof (nodup_times ns _ (snd x) PR W1 D) as T1. rewrite (times_perm _ _ _ P1), times_cons, Z.eqb_refl in T1.
        assert (0 < times (snd x) rest) by (apply times_in; exact C). lia. }
      eexists. split; [reflexivity|]. split; [|cbn; apply SR].
      eapply assemble with (n := n) (acts' := writes d a) (a := pa) (b := pb); eauto.
      * eapply effect_nodup; eauto.
      * destruct UA as [->|[-> _]]; destruct d as [x|]; cbn; auto; try (destruct Dd as (_ & C & _); discriminate); right; right; exists x;
          (split; [apply W1; apply Dd|auto]).
      * rewrite falses_app. assert (ND2 : NoDup (falses (pa ++ pb))) by (eapply Permutation_NoDup; [exact PF|exact DF]).
        destruct d as [x|].
        -- destruct Dd as (Hx & -> & _ & _). cbn. constructor; [|exact ND2].
           intros C. rewrite <- PF in C. apply I3 in C. apply (proj1 C). apply in_map. exact Hx.
        -- destruct UA as [->|[-> _]]; exact ND2.
      * intros o Ho. rewrite to_true_app. destruct (US o Ho) as [Ho'|[-> ->]].
        -- destruct (I2 o Ho') as [H|H]; [auto|]. rewrite TT in H. destruct H as [H|H]; [auto|destruct (NTn _ H)].
        -- right. left. exists n. destruct d as [x|]; cbn; eexists; (split; [left; reflexivity|split; [reflexivity|left; reflexivity]]).
      * intros o Ho. rewrite falses_app, in_app_iff in Ho. rewrite to_true_app.
        assert (K : In o (falses (pa ++ pb)) -> ~ stored r' o /\ (sflag s o = true \/ to_true (rest_of n (writes d a)) o \/ to_true (pa ++ pb) o)).
        { intros H. rewrite <- PF in H. assert (o <> snd n) by (intros ->; contradiction). destruct (I3 o H) as [H1 H2]. split.
          - intros C. destruct (US o C) as [C'|[_ C']]; [contradiction|congruence].
          - destruct H2 as [H2|H2]; [auto|]. rewrite TT in H2. destruct H2 as [H2|H2]; [auto|destruct (NTn _ H2)]. }
        destruct Ho as [Ho|Ho]; [|auto]. destruct d as [x|].
        -- destruct Dd as (Hx & -> & Hs & Nx). cbn in Ho. destruct Ho as [<-|[]]. split; [exact Hs|].
           destruct (I2 (snd x)) as [H|H]; [apply in_map; exact Hx|auto|]. rewrite TT in H. destruct H as [H|H]; [auto|destruct (NTn _ H)].
        -- destruct UA as [->|[-> _]]; destruct Ho.
      * intros m Hm. assert (Hm' : In (m, [AJoin m]) (threads s)) by (rewrite Et; apply in_app_iff in Hm; rewrite in_app_iff; cbn; tauto).
        destruct (I4 m Hm') as [M1 M2].
        assert (NM : snd m <> snd n) by (intros C; apply O1; rewrite <- C; apply in_map_iff; exists (m, [AJoin m]); auto). split.
        -- intros C. destruct (US _ C) as [C'|[_ C']]; [contradiction|congruence].
        -- rewrite falses_app, in_app_iff. intros [C|C]; [|rewrite PF in M2; contradiction].
           destruct d as [x|]; [|destruct UA as [->|[-> _]]; destruct C]. destruct Dd as (Hx & -> & _ & _). cbn in C. destruct C as [C|[]].
           apply M1. rewrite <- C. apply in_map. exact Hx.
    + destruct (shape_tail _ _ _ _ _ Sh E) as [Hn SA]. cbn [fst snd] in *.
      assert (x = n /\ acts = []) by (destruct SA as [SA|[SA|[SA|(y & _ & [SA|SA])]]]; split; congruence). destruct H as [-> ->].
      destruct (all_update ns (srt s) n false lat PR A Hn) as (r' & d & a & -> & A' & SR & TE). cbn [obind fst snd]. rewrite app_nil_r.
      destruct (new_thread (threads s) i n [ALeave n] (writes d a) E) as (pa & pb & Et & Er). rewrite Er. clear Er.
      destruct (parts ns s pa pb n [ALeave n] HS Et) as (Sh' & O1 & O2 & TT & PF). cbn [falses flat_map app snd] in PF.
      assert (NTn : forall o, to_true [(n, [ALeave n])] o -> False) by (intros o (m & ac & [H|[]] & _ & H2); assert (ac = [ALeave n]) by congruence; subst ac; destruct H2 as [H2|[]]; discriminate).
      destruct (update_stored _ _ _ _ _ _ _ _ TE) as [US UA]. assert (a = None) by (destruct UA as [H|[_ H]]; [exact H|discriminate]). subst a.
      assert (US' : forall o, stored r' o -> stored (srt s) o) by (intros o H; destruct (US o H) as [H'|[H' _]]; [exact H'|discriminate]). 
      assert (Dd : match d with Some x => x = n /\ stored (srt s) (snd n) /\ ~ stored r' (snd n) | None => True end).
      { destruct d as [x|]; [|exact I]. inversion TE as [| | | | |? ? y rest P1 H1 P2|]. subst x. split; [reflexivity|].
        assert (Ey : snd y = snd n) by (apply PR; auto; apply W1; rewrite P1; left; reflexivity).
        split; [unfold stored; rewrite (Permutation_map snd P1); left; exact Ey|]. unfold stored. rewrite (Permutation_map snd P2). intros C.
        pose proof (nodup_times ns _ (snd n) PR W1 D) as T1. rewrite (times_perm _ _ _ P1), times_cons, Ey, Z.eqb_refl in T1.
        assert (0 < times (snd n) rest) by (apply times_in; exact C). lia. }
      eexists. split; [reflexivity|]. split; [|cbn; apply SR].
      eapply assemble with (n := n) (acts' := writes d None) (a := pa) (b := pb); eauto.
      * eapply effect_nodup; eauto. discriminate.
      * destruct d as [x|]; cbn; auto. destruct Dd as [-> _]. right. right. exists n. auto.
      * rewrite falses_app. assert (ND2 : NoDup (falses (pa ++ pb))) by (eapply Permutation_NoDup; [exact PF|exact DF]).
        destruct d as [x|]; [|exact ND2]. destruct Dd as (-> & Hx & _). cbn. constructor; [|exact ND2].
        intros C. rewrite <- PF in C. apply I3 in C. exact (proj1 C Hx).
      * intros o Ho. rewrite to_true_app. destruct (I2 o (US' o Ho)) as [H|H]; [auto|]. rewrite TT in H. destruct H as [H|H]; [auto|destruct (NTn _ H)].
      * intros o Ho. rewrite falses_app, in_app_iff in Ho. rewrite to_true_app. destruct Ho as [Ho|Ho].
        -- destruct d as [x|]; [|destruct Ho]. destruct Dd as (-> & Hx & Hx'). cbn in Ho. destruct Ho as [<-|[]]. split; [exact Hx'|].
           destruct (I2 _ Hx) as [H|H]; [auto|]. rewrite TT in H. destruct H as [H|H]; [auto|destruct (NTn _ H)].
        -- rewrite <- PF in Ho. destruct (I3 o Ho) as [H1 H2]. split; [intros C; apply H1; auto|].
           destruct H2 as [H2|H2]; [auto|]. rewrite TT in H2. destruct H2 as [H2|H2]; [auto|destruct (NTn _ H2)].
      * intros m Hm. assert (Hm' : In (m, [AJoin m]) (threads s)) by (rewrite Et; apply in_app_iff in Hm; rewrite in_app_iff; cbn; tauto).
        destruct (I4 m Hm') as [M1 M2]. split; [intros C; apply M1; auto|].
        rewrite falses_app, in_app_iff. intros [C|C]; [|rewrite PF in M2; contradiction].
        destruct d as [x|]; [|destruct C]. destruct Dd as (-> & Hx & _). cbn in C. destruct C as [C|[]]. apply M1. rewrite <- C. exact Hx.
    + destruct (shape_tail _ _ _ _ _ Sh E) as [Hn SA]. cbn [fst snd] in *.
      destruct (new_thread (threads s) i n (ASet x v :: acts) acts E) as (pa & pb & Et & Er). rewrite Er. clear Er.
      destruct (parts ns s pa pb n (ASet x v :: acts) HS Et) as (Sh' & O1 & O2 & TT & PF).
      eexists. split; [reflexivity|]. split; [|reflexivity].
      assert (V : (v = true /\ x = n /\ (acts = [] \/ exists y, In y ns /\ acts = [ASet y false])) \/ (v = false /\ In x ns /\ acts = [])).
      { destruct SA as [SA|[SA|[SA|(y & Hy & [SA|SA])]]]; [discriminate|discriminate| | |].
        - left. assert (v = true /\ x = n /\ acts = []) by (repeat split; congruence). tauto.
        - right. assert (v = false /\ x = y /\ acts = []) by (repeat split; congruence). destruct H as (-> & -> & ->). auto.
        - left. assert (v = true /\ x = n /\ acts = [ASet y false]) by (repeat split; congruence). destruct H as (-> & -> & ->). split; [reflexivity|]. split; [reflexivity|]. right. exists y. auto. }
      eapply assemble with (n := n) (acts' := acts) (a := pa) (b := pb) (r := srt s); eauto.
      * destruct V as [(_ & _ & [->|(y & Hy & ->)])|(_ & _ & ->)]; auto. right. right. exists y. auto.
      * assert (EF : falses (rest_of n acts) = falses [(n, acts)]) by (destruct acts; reflexivity).
        rewrite falses_app, EF. assert (ND : NoDup (falses [(n, ASet x v :: acts)] ++ falses (pa ++ pb))) by (eapply Permutation_NoDup; [exact PF|exact DF]).
        destruct v; [exact ND|]. cbn in ND |- *. inversion ND; auto.
      * intros o Ho. rewrite set_flag_some, to_true_app. destruct v.
        -- destruct (Z.eqb_spec o (snd x)); [auto|]. destruct (I2 o Ho) as [H|H]; [auto|]. rewrite TT in H. destruct H as [H|(m & ac & [H|[]] & H1 & _)]; [auto|].
           destruct V as [(_ & Vx & _)|(V & _)]; [|discriminate]. exfalso. assert (m = n) by congruence. congruence.
        -- assert (NO : o <> snd x).
           { intros ->. assert (C : In (snd x) (falses (threads s))) by (rewrite PF; left; reflexivity). apply I3 in C. exact (proj1 C Ho). }
           destruct (Z.eqb_spec o (snd x)); [contradiction|]. destruct (I2 o Ho) as [H|H]; [auto|]. rewrite TT in H. destruct H as [H|(m & ac & [H|[]] & H1 & H2)]; [auto|].
           destruct V as [(V & _)|(_ & _ & ->)]; [discriminate|]. exfalso. assert (ac = [ASet x false]) by congruence. subst ac. destruct H2 as [H2|[]]. discriminate.
      * assert (EF : falses (rest_of n acts) = falses [(n, acts)]) by (destruct acts; reflexivity).
        intros o Ho. rewrite falses_app, EF in Ho. rewrite set_flag_some, to_true_app.
        assert (Ho' : In o (falses (threads s))).
        { rewrite PF. apply in_app_iff in Ho. apply in_app_iff. destruct Ho as [Ho|Ho]; [left|auto]. cbn in *. rewrite app_nil_r in *. apply in_app_iff. auto. }
        destruct (I3 o Ho') as [H1 H2]. split; [exact H1|]. destruct v.
        -- destruct (Z.eqb_spec o (snd x)); [auto|]. destruct H2 as [H|H]; [auto|]. rewrite TT in H. destruct H as [H|(m & ac & [H|[]] & H3 & _)]; [auto|].
           destruct V as [(_ & Vx & _)|(V & _)]; [|discriminate]. exfalso. assert (m = n) by congruence. congruence.
        -- assert (NO : o <> snd x).
           { intros ->. assert (ND : NoDup (falses [(n, ASet x false :: acts)] ++ falses (pa ++ pb))) by (eapply Permutation_NoDup; [exact PF|exact DF]).
             cbn in ND. inversion ND; subst. contradiction. }
           destruct (Z.eqb_spec o (snd x)); [contradiction|]. destruct H2 as [H|H]; [auto|]. rewrite TT in H. destruct H as [H|(m & ac & [H|[]] & H3 & H4)]; [auto|].
           destruct V as [(V & _)|(_ & _ & ->)]; [discriminate|]. exfalso. assert (ac = [ASet x false]) by congruence. subst ac. destruct H4 as [H4|[]]. discriminate.
      * assert (EF : falses (rest_of n acts) = falses [(n, acts)]) by (destruct acts; reflexivity).
        intros m Hm. assert (Hm' : In (m, [AJoin m]) (threads s)) by (rewrite Et; apply in_app_iff in Hm; rewrite in_app_iff; cbn; tauto).
        destruct (I4 m Hm') as [M1 M2]. split; [exact M1|]. intros C. apply M2. rewrite PF. rewrite falses_app, EF in C. apply in_app_iff in C. apply in_app_iff.
        destruct C as [C|C]; [left|auto]. cbn in *. rewrite app_nil_r in *. apply in_app_iff. auto.
Qed.

Lemma schedule_ok ns cs : forall s, proper ns -> SInv ns s -> (forall c, In c cs -> incl (choice_node c) ns) ->
  exists s', schedule s cs = Ok s' /\ SInv ns s' /\ my (srt s') = my (srt s).
Proof.
  induction cs as [|c cs IH]; intros s PR A H; cbn [schedule]; [eauto|].
  destruct (sched_step_ok ns s c PR A (H c (or_introl eq_refl))) as (s1 & -> & A1 & M1). cbn [obind].
  destruct (IH s1 PR A1) as (s2 & E2 & A2 & M2); [intros c' Hc; apply H; right; exact Hc|]. exists s2. split; [exact E2|]. split; [exact A2|]. congruence.
Qed.
Lemma sched_init ns me size : wf_key me -> SInv ns (new_sched me size).
Proof.
  intros H. assert (E : np_route_get_table (np_route_init me size) = []) by (rewrite get_table_tbl; apply tbl_empty).
  unfold SInv, new_sched. cbn [srt sflag threads]. unfold stored. rewrite E. cbn. split; [apply all_init; exact H|].
  repeat split; try constructor; intros; contradiction.
Qed.
