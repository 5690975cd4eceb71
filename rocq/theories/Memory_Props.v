(** C34, C35: reference counted objects. *)
From Verif Require Import Base Memory_Model Memory_Spec Memory_Proofs Memory_Conc.

(** ** C34: one client *)
(** Whatever the client does with references it holds, nothing aborts or is undefined, every object goes through
    its callbacks in the right order (so no object is handed out while it is in use, none is freed twice, none is
    handed out without having been refreshed), and the objects alive are exactly those with references. *)
Theorem C34_life_cycle : forall r block mn ops, exists p f,
  client (register r block mn) (fun _ => 0%nat) ops = Ok (p, f) /\
  forall x, phase_of r (calls p) x <> None /\ (phase_of r (calls p) x = Some Live <-> (0 < f x)%nat).
Proof.
  intros r b m ops. destruct (register_inv r b m) as [HI _]. destruct (client_inv r ops _ _ _ HI) as (p & f & live & E & HI' & _).
  exists p, f. split; auto. intros x. destruct HI' as [Hr Hn Ht Hl Hf Hre Hu Hno Hne Hc Hb]. rewrite <- Hl.
  destruct (in_dec Nat.eq_dec x live) as [L|L]; [destruct (Hu x L) as [_ P]; rewrite P; split; [discriminate|tauto]|].
  destruct (in_dec Nat.eq_dec x (free p)) as [L1|L1]; [destruct (Hf x L1) as [_ P]; rewrite P; split; [discriminate|]; split; [intros H; injection H as H; destruct (unused_nl r H)|tauto]|].
  destruct (in_dec Nat.eq_dec x (refreshed p)) as [L2|L2]; [destruct (Hre x L2) as [_ P]; rewrite P; split; [discriminate|]; split; [discriminate|tauto]|].
  destruct (Hno x) as [_ (h & P & N)]; [rewrite !in_app_iff; tauto|]. rewrite P. split; [discriminate|]. split; [congruence|tauto].
Qed.

(** An allocation hands out an object nobody has a reference to; a reference never recycles anything; giving up a
    reference returns the number left and recycles the object exactly if none is left. *)
Theorem C34_operations : forall r block mn ops p f, client (register r block mn) (fun _ => 0%nat) ops = Ok (p, f) ->
  (exists x q, apply p New = Ok (Some x, q) /\ f x = 0%nat) /\
  (forall x, permitted f (Ref x) = true -> exists q, ref_obj p x = Ok q /\ calls q = calls p) /\
  (forall x, permitted f (Unref x) = true -> exists q, unref_obj p x = Ok (Z.of_nat (f x) - 1, q) /\
     calls q = if Nat.eq_dec (f x) 1 then calls p ++ [OnFree x] else calls p).
Proof.
  intros r b m ops p f E. destruct (register_inv r b m) as [HI _]. destruct (client_inv r ops _ _ _ HI) as (p' & f' & live & E' & HI' & _).
  rewrite E in E'. injection E' as <- <-. split; [|split].
  - destruct (new_step r p f live HI') as (x & q & En & F0 & _). exists x, q. cbn [apply]. rewrite En. auto.
  - intros x H. unfold permitted in H. destruct (ref_step r p f live x HI') as (q & Eq & _); [lia|lia|]. exists q. split; auto.
    unfold ref_obj in Eq. destruct (items p x); [|discriminate]. injection Eq as <-. reflexivity.
  - intros x H. unfold permitted in H. destruct (unref_step r p f live x HI') as (q & l' & Eq & _ & _ & C); [lia|]. exists q. auto.
Qed.

(** No object is lost: every object ever allocated and not released is either alive or on exactly one of the two
    lists of available objects, and the number of objects in use is exact (as a 32 bit number). *)
Theorem C34_accounting : forall r block mn ops p f, client (register r block mn) (fun _ => 0%nat) ops = Ok (p, f) ->
  exists live, NoDup live /\ (forall x, In x live <-> (0 < f x)%nat) /\ cur p = u32 (Z.of_nat (length live)) /\
    NoDup (total p) /\ (forall x, items p x <> None <-> In x (total p)) /\
    Permutation (total p) (free p ++ refreshed p ++ live).
Proof.
  intros r b m ops p f E. destruct (register_inv r b m) as [HI _]. destruct (client_inv r ops _ _ _ HI) as (p' & f' & live & E' & HI' & _).
  rewrite E in E'. injection E' as <- <-. destruct HI' as [Hr Hn Ht Hl Hf Hre Hu Hno Hne Hc Hb]. exists live.
  split; [apply nodup_app in Hn; destruct Hn as (_ & Hn & _); apply nodup_app in Hn; tauto|]. split; auto. split; auto.
  split; [eapply Permutation_NoDup; [symmetry; exact Ht|auto]|]. split; auto. intros x. split.
  - intros N. apply (Permutation_in _ (Permutation_sym Ht)). destruct (in_dec Nat.eq_dec x (free p ++ refreshed p ++ live)) as [|L]; auto. destruct (Hno x L). congruence.
  - intros L. apply (Permutation_in _ Ht) in L. rewrite !in_app_iff in L. destruct L as [L|[L|L]]; [destruct (Hf x L) as [P _]|destruct (Hre x L) as [P _]|destruct (Hu x L) as [P _]]; rewrite P; discriminate.
Qed.
(** The pool never shrinks below the configured minimum. *)
Theorem C34_minimum_kept : forall r block mn ops p f, (0 < block)%nat -> client (register r block mn) (fun _ => 0%nat) ops = Ok (p, f) ->
  (mn <= length (total p))%nat.
Proof.
  intros r b m ops p f Hb E. destruct (register_inv r b m) as [HI [F1 F2]]. destruct (client_inv r ops _ _ _ HI) as (p' & f' & live & E' & HI' & M).
  rewrite E in E'. injection E' as <- <-. cbn in F2.
  assert (M0 : (min_count (register r b m) <= length (total (register r b m)))%nat).
  { rewrite F2. unfold register. change m with (min_count (mkPool r b m (fun _ => None) 0 [] [] [] 0 [])) at 1. apply blocks_min; cbn; lia. }
  specialize (M M0). assert (MC : min_count p = m); [|lia].
  transitivity (min_count (register r b m)); [|exact F2]. clear -E HI. revert E HI. generalize (register r b m) (@nil nat) (fun _ : nat => 0%nat).
  induction ops as [|o ops IH]; intros p0 l0 f0; cbn [client]; [intros E _; injection E as <- <-; reflexivity|].
  destruct (permitted f0 o) eqn:Ep; [|apply IH]. intros E HI.
  destruct o; cbn [apply permitted] in *.
  - destruct (new_step r p0 f0 l0 HI) as (x & q & En & _ & ((_ & F) & _) & HI'). rewrite En in E. cbn [obind] in E. rewrite <- F. eapply IH; eauto.
  - destruct (ref_step r p0 f0 l0 x HI) as (q & En & ((_ & F) & _) & HI'); [lia|lia|]. rewrite En in E. cbn [obind] in E. rewrite <- F. eapply IH; eauto.
  - destruct (unref_step r p0 f0 l0 x HI) as (q & l' & En & HI' & ((_ & F) & _) & _); [lia|]. rewrite En in E. cbn [obind] in E. rewrite <- F. eapply IH; eauto.
  - destruct (management_step r p0 f0 l0 wish HI) as (q & En & HI' & _ & (_ & F)). rewrite En in E. cbn [obind] in E. rewrite <- F. eapply IH; eauto.
Qed.
Example client_example : match client (register true 2 3) (fun _ => 0%nat) [New; New; Ref 0; Unref 0; Unref 0; Manage true; New; New; New; Unref 1] with
  | Ok (p, f) => f 0%nat = 1%nat /\ f 1%nat = 0%nat /\ cur p = 3 /\ In (OnFree 0%nat) (calls p) | _ => False end.
Proof. vm_compute. repeat split; auto 10. Qed.

(** ** C35: any number of threads *)
Lemma start_inv r block mn : CInv (start (register r block mn)).
Proof.
  destruct (register_inv r block mn) as [[Hr Hn Ht Hl Hf Hre Hu Hno Hne Hc Hb] _]. rewrite app_nil_r in Hn, Ht.
  assert (AV : forall x, In x (free (register r block mn) ++ refreshed (register r block mn)) -> exists i, items (register r block mn) x = Some i /\ in_use i = false /\ ref_count i = 0).
  { intros x H. rewrite in_app_iff in H. destruct H as [H|H]; [destruct (Hf x H) as [E _]|destruct (Hre x H) as [E _]]; rewrite E; eauto. }
  assert (NO : forall x, ~ In x (free (register r block mn) ++ refreshed (register r block mn)) -> items (register r block mn) x = None) by (intros x H; apply Hno; rewrite app_nil_r; auto).
  constructor; cbn [start cpool pcs holds popped].
  - exact Hn.
  - intros. constructor.
  - intros t x [].
  - intros t u x _ [].
  - intros x H. destruct (AV x H) as (i & ? & ? & _). eauto.
  - intros t x [].
  - intros t x H. apply fresh_idle in H. destruct H.
  - intros t u x _ H. apply fresh_idle in H. destruct H.
  - intros t x [].
  - intros x i E. destruct (in_dec Nat.eq_dec x (free (register r block mn) ++ refreshed (register r block mn))) as [L|L]; [|rewrite NO in E; [discriminate|auto]].
    destruct (AV x L) as (j & Ej & _ & Rj). rewrite E in Ej. injection Ej as <-. exact Rj.
  - intros x H. apply NO. destruct (Hne x H) as [N _]. rewrite app_nil_r in N. auto.
  - intros x. cbn. lia.
  - intros x i E U. destruct (in_dec Nat.eq_dec x (free (register r block mn) ++ refreshed (register r block mn))); [auto|]. rewrite NO in E; [discriminate|auto].
  - intros x i E U. destruct (in_dec Nat.eq_dec x (free (register r block mn) ++ refreshed (register r block mn))) as [L|L]; [|rewrite NO in E; [discriminate|auto]].
    destruct (AV x L) as (j & Ej & Uj & _). congruence.
Qed.
(** Partial: for any number of threads and every interleaving of lock scopes, an owned object is neither recycled
    nor deleted nor handed out, and nothing aborts or is undefined - provided the second half of a release
    (np_memory_free, which runs after the lock was given up) never meets an object that was deleted, or that is being handed
    out again at that very moment.  The code does nothing to ensure this (see the next two theorems). *)
Theorem C35_owned_objects_safe_partial : forall r block mn sched, benign_run (start (register r block mn)) sched ->
  match run (start (register r block mn)) sched with
  | None => True                       (* not a schedule: a thread was asked to do what it cannot do *)
  | Some (Ok s) => owner_safe s
  | Some _ => False
  end.
Proof.
  intros r b m sched B. pose proof (run_inv sched _ (start_inv r b m) B) as H. destruct (run _ sched) as [[s| |]|]; auto. apply safe_of_inv; auto.
Qed.
(** ... and under the same condition no object is lost: an object in use without references is being handed out or released. *)
Theorem C35_no_leak_partial : forall r block mn sched s, benign_run (start (register r block mn)) sched ->
  run (start (register r block mn)) sched = Some (Ok s) ->
  forall x i, items (cpool s) x = Some i ->
    (in_use i = false -> In x (free (cpool s) ++ refreshed (cpool s)) \/ exists t, In x (popped (pcs s t))) /\
    (in_use i = true -> (exists t, In (t, x) (holds s)) \/ exists t, fresh_for (pcs s t) x \/ pcs s t = UnFree x).
Proof.
  intros r b m sched s B E x i Ex. pose proof (run_inv sched _ (start_inv r b m) B) as H. rewrite E in H. split; [apply (c_leak1 s H); auto|].
  intros U. destruct (Nat.eq_dec (count x (holds s)) 0) as [Z|Z]; [right; apply (c_leak2 s H x i); auto|]. left.
  destruct (holds s) as [|e h] eqn:Eh; [cbn in Z; congruence|]. rewrite <- Eh in *.
  assert (D : ~ forall t, ~ In (t, x) (holds s)) by (intros N; apply Z; apply count_zero; auto).
  clear -D. induction (holds s) as [|[u z] h IH]; [exfalso; apply D; intros t []|]. destruct (Nat.eq_dec z x) as [->|N]; [exists u; left; auto|].
  destruct IH as [t Ht]; [|exists t; right; auto]. intros H. apply D. intros t [E|E]; [congruence|exact (H t E)].
Qed.
(** a run with two owners, recycling and reuse that meets the condition *)
Definition good_schedule : list (nat * act) :=
  [(0, ANewFree); (0, AGo); (0, AGo); (0, AGo); (0, AGo); (0, ARef 0); (0, AGive 0 1); (1, AUnref 0); (2, ANewMem); (0, AUnref 0); (1, AGo);
   (0, AGo); (2, ANewFree); (1, AGo); (2, AGo); (3, APop 1); (2, AGo); (2, AGo); (3, AGo); (3, AGo); (2, AGo)]%nat.
Lemma benign_decide s l : 
  (fix chk (s : conc) (l : list (nat * act)) {struct l} : bool :=
     match l with
     | [] => true
     | (t, a) :: l' =>
         match pcs s t, a with
         | UnFree x, AGo => match items (cpool s) x with Some i => if in_use i then (0 <? ref_count i) || (count x (holds s) =? 0)%nat && forallb (fun u => match pcs s u with NewCount y | NewRef y => negb (Nat.eqb y x) | _ => true end) (seq 0 9) else true | None => false end
         | Idle, ARef x => Z.of_nat (count x (holds s)) <? 4294967295
         | _, _ => true
         end && match step s t a with Some (Ok s') => chk s' l' | _ => true end
     end) s l = true -> CInv s -> (forall u, (9 <= u)%nat -> pcs s u = Idle) -> (forall t a, In (t, a) l -> (t < 9)%nat) -> benign_run s l.
Proof.
  revert s. induction l as [|[t a] l IH]; intros s H I Q T; [exact Logic.I|]. apply andb_true_iff in H. destruct H as [H1 H2].
  assert (B : benign s t a).
  { unfold benign. destruct (pcs s t) eqn:Pt; auto; destruct a; auto; [lia|].
    destruct (items (cpool s) x) as [i|] eqn:E; [|discriminate]. split; [discriminate|]. intros u Fu.
    destruct (c_win s I u x Fu) as (j & Ej & Uj & C0). rewrite E in Ej. injection Ej as <-. rewrite Uj in H1.
    pose proof (c_rc s I x i E). rewrite C0 in *. rewrite H in H1. cbn [orb Z.ltb Z.of_nat Z.compare Nat.eqb andb] in H1.
    rewrite forallb_forall in H1. destruct (le_lt_dec 9 u) as [L|L]; [rewrite (Q u L) in Fu; apply fresh_idle in Fu; auto|].
    specialize (H1 u). rewrite in_seq in H1. specialize (H1 ltac:(lia)). destruct Fu as [Fu|Fu]; rewrite Fu, Nat.eqb_refl in H1; discriminate. }
  split; auto. pose proof (step_inv s t a I B) as SI. unfold step_ok in SI. destruct (step s t a) as [[s'| |]|] eqn:E; auto.
  apply IH; auto; [|intros; eapply T; right; eauto]. intros u Hu. specialize (Q u Hu). assert (u <> t) by (specialize (T t a (or_introl eq_refl)); lia).
  revert E. unfold step, pop_free, pop_refreshed, owns, obind.
  repeat match goal with |- context [match ?x with _ => _ end] => destruct x; try discriminate end; intros E; injection E as <-; cbn; auto;
  repeat match goal with |- context [Nat.eq_dec ?x ?y] => destruct (Nat.eq_dec x y); [congruence|] end; auto.
Qed.
Example good_example : benign_run (start (register true 1 1)) good_schedule /\
  match run (start (register true 1 1)) good_schedule with Some (Ok s) => In (2, 1)%nat (holds s) /\ calls (cpool s) <> [] | _ => False end.
Proof.
  split; [|vm_compute; split; [auto|discriminate]]. apply benign_decide; [vm_compute; reflexivity|apply start_inv|reflexivity|].
  intros t a H. cbn in H. repeat (destruct H as [H|H]; [injection H as <- _; lia|]). destruct H.
Qed.

(** FINDING: np_memory_unref_obj decrements under the lock, releases the lock and only then calls np_memory_free.
    A schedule of four threads, each using only references it owns, in which one object ends up with two
    unrelated owners: it was recycled while thread 2 had just allocated it, and then handed to thread 3. *)
Definition race_schedule : list (nat * act) :=
  [(0, ANewFree); (0, AGo); (0, AGo); (0, AGo); (0, AGo); (0, ARef 0); (0, AGive 0 1);
   (0, AUnref 0);                                   (* 2 -> 1, lock released *)
   (1, AUnref 0); (1, AGo); (1, AGo);               (* 1 -> 0, recycled *)
   (2, ANewFree); (2, AGo); (2, AGo); (2, AGo);     (* thread 2 is given the object *)
   (0, AGo);                                        (* late np_memory_free recycles it again *)
   (2, AGo);                                        (* thread 2 takes its reference *)
   (3, ANewFree); (3, AGo); (3, AGo); (3, AGo); (3, AGo)]%nat.
Theorem C35_recycled_while_owned_refuted :
  match run (start (register true 1 1)) race_schedule with
  | Some (Ok s) => In (2, 0)%nat (holds s) /\ In (3, 0)%nat (holds s) /\     (* two owners ... *)
      (exists i, items (cpool s) 0%nat = Some i /\ ref_count i = 1)          (* ... but one reference counted *)
  | _ => False
  end.
Proof. vm_compute. repeat split; eauto. Qed.
(** ... and already before thread 3 allocates, the object thread 2 owns is on the list of available objects. *)
Theorem C35_owned_object_available_refuted :
  match run (start (register true 1 1)) (firstn 17 race_schedule) with
  | Some (Ok s) => In (2, 0)%nat (holds s) /\ In 0%nat (free (cpool s)) /\ ~ owner_safe s
  | _ => False
  end.
Proof.
  destruct (run _ _) as [[s| |]|] eqn:E; try (vm_compute in E; discriminate E).
  assert (H : In (2, 0)%nat (holds s) /\ In 0%nat (free (cpool s))).
  { assert (C : match run (start (register true 1 1)) (firstn 17 race_schedule) with Some (Ok s) => In (2, 0)%nat (holds s) /\ In 0%nat (free (cpool s)) | _ => False end) by (vm_compute; auto).
    rewrite E in C. exact C. }
  destruct H as [H1 H2]. split; auto. split; auto. intros S. destruct (S _ _ H1) as (_ & N & _). tauto.
Qed.
(** FINDING: the same window lets the delayed np_memory_free read an item the memory management has deleted. *)
Definition deleted_schedule : list (nat * act) :=
  [(0, ANewFree); (0, AGo); (0, AGo); (0, AGo); (0, AGo); (0, ARef 0); (0, AGive 0 1);
   (0, AUnref 0); (1, AUnref 0); (1, AGo); (1, AGo); (2, ADelFree); (2, AGo); (0, AGo)]%nat.
Theorem C35_use_after_free_refuted : run (start (register true 1 1)) deleted_schedule = Some UB.
Proof. vm_compute. reflexivity. Qed.

Print Assumptions C34_life_cycle.
Print Assumptions C34_operations.
Print Assumptions C34_accounting.
Print Assumptions C34_minimum_kept.
Print Assumptions C35_owned_objects_safe_partial.
Print Assumptions C35_no_leak_partial.
Print Assumptions C35_recycled_while_owned_refuted.
Print Assumptions C35_owned_object_available_refuted.
Print Assumptions C35_use_after_free_refuted.
