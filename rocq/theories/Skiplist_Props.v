(** C13: the skip list is a sorted set, for every sequence of random numbers. *)
From Verif Require Import Base Lists_Spec Skiplist_Model Skiplist_Spec Skiplist_Proofs.

(** one API call; [z] is what random() returns and [a] the address malloc returns (both only used by add:
    src/util/np_skiplist.c:172-173, 202) *)
Definition skip_do {A} (cmp : A -> A -> Z) (fuel : nat) (s : @skip A) (o : set_op A) (z : Z) (a : nat) : outcome (set_answer A * @skip A) :=
  match o with
  | SAdd x => obind (pick_height (num s) z) (fun h => obind (skip_add cmp fuel s x (Z.to_nat (h + 1)) a) (fun '(b, s') => Ok (AFlag b, s')))
  | SFind x => obind (skip_find cmp fuel s x) (fun '(b, y) => Ok (AFound b y, s))
  | SRemove x => obind (skip_remove cmp fuel s x) (fun '(b, s') => Ok (AFlag b, s'))
  | SSize => Ok (ASize (skip_size s), s)
  end.
Fixpoint skip_run {A} (cmp : A -> A -> Z) (fuel : nat) (s : @skip A) (os : list (set_op A * (Z * nat))) : outcome (list (set_answer A) * @skip A) :=
  match os with
  | [] => Ok ([], s)
  | (o, (z, a)) :: os' => obind (skip_do cmp fuel s o z a) (fun '(r, s1) => obind (skip_run cmp fuel s1 os') (fun '(rs, s2) => Ok (r :: rs, s2)))
  end.
(** malloc returns unused memory, and random() is a 31 bit number that is not all ones (see C13_random_all_ones_refuted) *)
Fixpoint environment_ok {A} (cmp : A -> A -> Z) (fuel : nat) (s : @skip A) (os : list (set_op A * (Z * nat))) : Prop :=
  match os with
  | [] => True
  | (o, (z, a)) :: os' => 0 <= z < 2 ^ 31 - 1 /\ a <> 0%nat /\ smem s a = None /\
      match skip_do cmp fuel s o z a with Ok (_, s1) => environment_ok cmp fuel s1 os' | _ => True end
  end.

(** ** heights *)
Lemma trailing_ones_ok n : forall z, 0 <= z < 2 ^ Z.of_nat n ->
  (z = 2 ^ Z.of_nat n - 1 -> trailing_ones n z = UB) /\
  (z <> 2 ^ Z.of_nat n - 1 -> exists k, trailing_ones n z = Ok k /\ 0 <= k < Z.of_nat n).
Proof.
  induction n as [|n IH]; intros z Hz.
  - cbn in *. split; auto. lia.
  - cbn [trailing_ones]. rewrite Nat2Z.inj_succ, Z.pow_succ_r in * by lia.
    pose proof (Zodd_bool_iff z) as Ho. pose proof (Z.div2_odd z) as Hd. rewrite Z.div2_div in Hd.
    assert (Hpos : 0 < 2 ^ Z.of_nat n) by (apply Z.pow_pos_nonneg; lia).
    destruct (Z.odd z) eqn:Eo; cbn [Z.b2z] in Hd.
    + destruct (IH (z / 2)) as [I1 I2]; [lia|]. split; intros Hx.
      * rewrite I1 by lia. auto.
      * destruct I2 as (k & -> & Hk); [lia|]. exists (k + 1). cbn. split; auto. lia.
    + split; intros Hx; [lia|]. exists 0. split; auto. lia.
Qed.
Lemma bits_nonneg f : forall n, 0 <= bits f n.
Proof. induction f as [|f IH]; intros n; cbn; [lia|]. destruct (0 <? n); [specialize (IH (n / 2)); lia|lia]. Qed.

(** The tower height is always between 1 and 31, so it fits the int8_t level counters, for every number of elements and random number. *)
Theorem C13_height_bounds : forall elements z, 0 <= z < 2 ^ 31 - 1 ->
  exists h, pick_height elements z = Ok h /\ 1 <= h + 1 <= 31.
Proof.
  intros e z Hz. unfold pick_height. destruct (trailing_ones_ok 31 z) as [_ H]; [cbn; lia|].
  destruct H as (k & -> & Hk); [cbn; lia|]. cbn [obind]. pose proof (bits_nonneg 64 (u32 e)).
  destruct (Z.ltb_spec (1 + bits 64 (u32 e)) k); eexists; (split; [reflexivity|lia]).
Qed.
Example height_bounds_example : pick_height 100 255 = Ok 8 /\ pick_height 3 255 = Ok 3 /\ pick_height 3 6 = Ok 0.
Proof. vm_compute. auto. Qed.

(** FINDING: when random() returns 2^31-1 the int32_t mask is shifted past its sign bit (undefined behaviour). *)
Theorem C13_random_all_ones_refuted : forall elements, pick_height elements (2 ^ 31 - 1) = UB.
Proof. intros e. unfold pick_height. destruct (trailing_ones_ok 31 (2 ^ 31 - 1)) as [H _]; [cbn; lia|]. rewrite H by reflexivity. reflexivity. Qed.

(** ** history *)
Section H.
  Context {A : Type}.
  Variable cmp : A -> A -> Z.
  Hypothesis C : comparator cmp.

  Lemma vals_ascending full : StronglySorted (elt cmp) full -> ascending cmp (vals full).
  Proof.
    unfold ascending. induction 1 as [|e l S IH F]; cbn; [constructor|].
    destruct (ev e) as [y|] eqn:Hy; cbn [app]; auto. constructor; auto. apply Forall_forall. intros z Hz.
    unfold vals in Hz. apply in_flat_map in Hz. destruct Hz as (f & Hf & Hz). rewrite Forall_forall in F. specialize (F f Hf).
    unfold elt in F. rewrite Hy in F. destruct (ev f); [|destruct Hz]. destruct Hz as [<-|[]]. auto.
  Qed.
  Lemma size_vals s full : skip_holds cmp s full -> num s = Z.of_nat (length (vals full)).
  Proof.
    intros (W & _ & ->). destruct (wf_root cmp full W) as (root & L & -> & _ & Ev & HL). cbn. rewrite Ev. cbn. f_equal.
    clear -HL. induction L as [|e L IH]; cbn; auto. rewrite app_length. rewrite <- IH by (intros; apply HL; right; auto).
    destruct (HL e (or_introl eq_refl)) as [_ Hn]. destruct (ev e); [auto|congruence].
  Qed.

  Lemma do_ok fuel s full o z a : skip_holds cmp s full -> (length full < fuel)%nat -> 0 <= z < 2 ^ 31 - 1 -> a <> 0%nat -> smem s a = None ->
    exists r s' full', skip_do cmp fuel s o z a = Ok (r, s') /\ skip_holds cmp s' full' /\
      set_step cmp (vals full) o r (vals full') /\ (length full' <= S (length full))%nat.
  Proof.
    intros H Hf Hz Ha Hfr. destruct o as [x|x|x|]; cbn [skip_do].
    - destruct (C13_height_bounds (num s) z Hz) as (h & -> & Hh). cbn [obind].
      destruct (skip_add_ok cmp C fuel s full x (Z.to_nat (h + 1)) a H Hf) as (b & s' & -> & R); auto; [lia|]. cbn [obind].
      cbn [set_step]. destruct (member cmp x (vals full)).
      + destruct R as [-> ->]. do 2 eexists. exists full. split; [reflexivity|]. auto.
      + destruct R as (-> & full' & H' & As & P & _ & L). do 2 eexists. exists full'. split; [reflexivity|]. split; auto. split; auto. lia.
    - rewrite (skip_find_ok cmp C fuel s full x H Hf). cbn [obind]. exists (match find (fun y => 0 <=? cmp y x) (vals full) with Some y => AFound (cmp y x =? 0) (Some y) | None => AFound false (Some x) end), s, full.
      split; [destruct (find _ (vals full)); reflexivity|]. split; auto. cbn [set_step]. auto.
    - destruct (skip_remove_ok cmp C fuel s full x H Hf) as (s' & full' & -> & H' & V & L). cbn [obind]. do 2 eexists. exists full'. split; [reflexivity|].
      split; auto. cbn [set_step]. auto.
    - do 2 eexists. exists full. split; [reflexivity|]. split; auto. cbn [set_step]. unfold skip_size. rewrite (size_vals _ _ H). auto.
  Qed.
  Lemma run_ok fuel os : forall s full, skip_holds cmp s full -> (length full + length os < fuel)%nat -> environment_ok cmp fuel s os ->
    exists rs s' full', skip_run cmp fuel s os = Ok (rs, s') /\ skip_holds cmp s' full' /\ set_run cmp (vals full) (map fst os) rs (vals full') /\
      (length full' < fuel)%nat.
  Proof.
    induction os as [|[o [z a]] os IH]; intros s full H Hf He.
    - exists [], s, full. cbn in *. split; auto. split; auto. split; [constructor|lia].
    - cbn [environment_ok] in He. destruct He as (Hz & Ha & Hm & He). cbn [length] in Hf.
      destruct (do_ok fuel s full o z a) as (r & s1 & full1 & E1 & H1 & S1 & L1); auto; [lia|]. rewrite E1 in He.
      destruct (IH s1 full1 H1) as (rs & s2 & full2 & E2 & H2 & S2 & L2); auto; [lia|].
      exists (r :: rs), s2, full2. cbn [skip_run map fst]. rewrite E1. cbn [obind]. rewrite E2. cbn [obind]. split; auto. split; auto. split; auto.
      econstructor; eauto.
  Qed.
  Lemma init_holds : skip_holds cmp (@skip_init A) [mkE ROOT None 0].
  Proof.
    split; [|split; [cbn; split; [reflexivity|exact Logic.I]|reflexivity]]. constructor.
    - repeat constructor; cbn; tauto.
    - intros e [<-|[]]. cbn. unfold ROOT. lia.
    - repeat constructor.
    - exists (mkE ROOT None 0), []. repeat split; auto; intros; contradiction.
  Qed.
End H.

(** Any history of add, find, remove and size on a fresh list, with any random numbers and any fresh
    addresses, never touches freed memory and answers as a mathematical set would ([set_run]); walking
    level 0 afterwards lists exactly that set in ascending order, each element once. *)
Theorem C13_sorted_set_history : forall (A : Type) (cmp : A -> A -> Z), comparator cmp ->
  forall fuel os, (length os + 1 < fuel)%nat -> environment_ok cmp fuel skip_init os ->
  exists rs s' l, skip_run cmp fuel skip_init os = Ok (rs, s') /\ set_run cmp [] (map fst os) rs l /\
    level0 fuel (smem s') ROOT = Ok l /\ ascending cmp l /\ skip_size s' = Z.of_nat (length l).
Proof.
  intros A cmp C fuel os Hf He.
  destruct (run_ok cmp C fuel os skip_init _ (init_holds cmp)) as (rs & s' & full & E & H & S & L); auto; [cbn; lia|].
  exists rs, s', (vals full). split; auto. split; [exact S|]. pose proof H as (W & Hc & _).
  split; [|split].
  - destruct (wf_root cmp full W) as (root & T & E0 & Er & Ev & _). rewrite <- Er. rewrite E0 at 1. cbn [vals flat_map]. rewrite Ev. cbn [app].
    apply (level0_ok cmp (smem s') full W Hc T fuel [] root); auto. rewrite E0 in L. cbn in L. lia.
  - apply vals_ascending. apply (wf_sorted cmp full W).
  - apply size_vals with (1 := H).
Qed.

(** what the specification implies, spelled out: the set after a run is ascending, hence duplicate free *)
Theorem C13_membership_after_history : forall (A : Type) (cmp : A -> A -> Z), comparator cmp ->
  forall fuel os x z a, (length os + 2 < fuel)%nat -> environment_ok cmp fuel skip_init (os ++ [(SFind x, (z, a))]) ->
  exists rs s' l y, skip_run cmp fuel skip_init (os ++ [(SFind x, (z, a))]) = Ok (rs ++ [AFound (member cmp x l) y], s') /\
    set_run cmp [] (map fst os) rs l.
Proof.
  intros A cmp C fuel os x z a Hf He.
  assert (Hpre : forall os s, environment_ok cmp fuel s (os ++ [(SFind x, (z, a))]) -> environment_ok cmp fuel s os).
  { clear. induction os as [|[o [z' a']] os IH]; intros s H; [exact Logic.I|]. cbn [app environment_ok] in *. destruct H as (H1 & H2 & H3 & H4).
    split; auto. split; auto. split; auto. destruct (skip_do cmp fuel s o z' a') as [[r s1]| |]; auto. }
  destruct (run_ok cmp C fuel os skip_init _ (init_holds cmp)) as (rs & s' & full & E & H & S & L); auto; [cbn; lia|].
  assert (Happ : forall os s rs s', skip_run cmp fuel s os = Ok (rs, s') -> skip_run cmp fuel s (os ++ [(SFind x, (z, a))]) =
    obind (skip_do cmp fuel s' (SFind x) z a) (fun '(r, s2) => Ok (rs ++ [r], s2))).
  { clear. induction os as [|[o [z' a']] os IH]; intros s rs s' E; cbn [app skip_run] in *.
    - injection E as <- <-. destruct (skip_do cmp fuel s (SFind x) z a) as [[r s1]| |]; reflexivity.
    - destruct (skip_do cmp fuel s o z' a') as [[r s1]| |]; try discriminate. cbn [obind] in *.
      destruct (skip_run cmp fuel s1 os) as [[rs1 s2]| |] eqn:E1; try discriminate. cbn [obind] in E. injection E as <- <-.
      rewrite (IH _ _ _ E1). destruct (skip_do cmp fuel s2 (SFind x) z a) as [[r' s3]| |]; reflexivity. }
  rewrite (Happ _ _ _ _ E). cbn [skip_do]. rewrite (skip_find_ok cmp C fuel s' full x H L). cbn [obind].
  assert (Hm : member cmp x (vals full) = match find (fun y => 0 <=? cmp y x) (vals full) with Some y => cmp y x =? 0 | None => false end).
  { pose proof (vals_ascending cmp full (wf_sorted cmp full (proj1 H))) as As. clear -As C. unfold ascending in As. induction As as [|y l S IH F]; cbn; auto.
    unfold member in IH |- *. cbn [existsb]. rewrite IH. destruct (Z.leb_spec 0 (cmp y x)) as [Hy|Hy].
    - destruct (Z.eqb_spec (cmp y x) 0); auto. cbn. destruct (find (fun y0 => 0 <=? cmp y0 x) l) as [w|] eqn:Ew; auto.
      apply find_some in Ew. destruct Ew as [Hw _]. rewrite Forall_forall in F. specialize (F w Hw).
      destruct (Z.eqb_spec (cmp w x) 0); auto. exfalso. assert (cmp y x < 0) by (apply (lt_le_trans' cmp C) with w; lia). lia.
    - replace (cmp y x =? 0) with false by lia. auto. }
  exists rs, s', (vals full), (match find (fun y => 0 <=? cmp y x) (vals full) with Some y => Some y | None => Some x end). split; [|exact S].
  rewrite Hm. destruct (find _ (vals full)); reflexivity.
Qed.

(** the height 1 and a height 3 tower, removal of a middle element, a duplicate insertion *)
Definition zc (x y : Z) : Z := x - y.
Definition demo : list (set_op Z * (Z * nat)) :=
  [(SAdd 5, (3, 10%nat)); (SAdd 1, (0, 11%nat)); (SAdd 9, (7, 12%nat)); (SAdd 5, (1, 13%nat)); (SAdd 7, (1, 13%nat));
   (SFind 6, (0, 20%nat)); (SRemove 5, (0, 20%nat)); (SRemove 5, (0, 20%nat)); (SFind 7, (0, 20%nat)); (SSize, (0, 20%nat)); (SFind 10, (0, 20%nat))].
Example history_example : comparator zc /\ environment_ok zc 20 skip_init demo /\
  match skip_run zc 20 skip_init demo with
  | Ok (rs, s) => rs = [AFlag true; AFlag true; AFlag true; AFlag false; AFlag true; AFound false (Some 7); AFlag true; AFlag false; AFound true (Some 7); ASize 3; AFound false (Some 10)] /\
                  level0 20 (smem s) ROOT = Ok [1; 7; 9]
  | _ => False
  end.
Proof.
  split; [unfold zc; constructor; intros; lia|]. split.
  - vm_compute. repeat (split; [first [discriminate | reflexivity | intuition discriminate]|]). exact Logic.I.
  - vm_compute. auto.
Qed.

Print Assumptions C13_height_bounds.
Print Assumptions C13_random_all_ones_refuted.
Print Assumptions C13_sorted_set_history.
Print Assumptions C13_membership_after_history.
