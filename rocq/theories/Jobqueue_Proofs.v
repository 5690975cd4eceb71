From Verif Require Import Base Heap_Model Heap_Spec Heap_Proofs Jobqueue_Model.

Lemma job_before_spec a b : job_before a b = true <->
  j_ts a < j_ts b \/ (j_ts a = j_ts b /\ j_prio a < j_prio b).
Proof.
  unfold job_before, job_compare_scheduling.
  destruct (Z.gtb_spec (j_ts b) (j_ts a)), (Z.ltb_spec (j_ts b) (j_ts a)),
           (Z.gtb_spec (j_prio b) (j_prio a)), (Z.ltb_spec (j_prio b) (j_prio a)); cbn; split; intros; try discriminate; try lia; auto.
Qed.

Lemma job_before_false a b : job_before a b = false <->
  j_ts b < j_ts a \/ (j_ts a = j_ts b /\ j_prio b <= j_prio a).
Proof.
  pose proof (job_before_spec a b) as H. destruct (job_before a b) eqn:E.
  - split; [discriminate|]. destruct H as [H _]. specialize (H eq_refl). lia.
  - split; [intros _|auto]. destruct (Z.lt_ge_cases (j_ts b) (j_ts a)); auto.
    right. destruct H as [_ H].
    destruct (Z.lt_ge_cases (j_ts a) (j_ts b)); [discriminate H; auto|].
    destruct (Z.lt_ge_cases (j_prio a) (j_prio b)); [discriminate H; right; lia|]. lia.
Qed.

Lemma job_sw : strict_weak job_before.
Proof.
  split; intros.
  - apply job_before_false. lia.
  - rewrite job_before_false in *. lia.
  - rewrite job_before_spec in H. rewrite job_before_false. lia.
Qed.

(** invariant of one lane: heap ordered, bounded, cached schedule is the head's time *)
Definition lane_inv (l : lane) : Prop :=
  inv job_before (l_heap l) /\ (hcount (l_heap l) < JOBQUEUE_MAX_SIZE)%nat /\
  (forall f, heap_first (l_heap l) = Ok f -> l_next l = j_ts f).
Definition jq_inv (s : jq) : Prop := lane_inv (lane0 s) /\ lane_inv (lane1 s).

Definition lane_jobs (l : lane) : list job := heap_list (l_heap l).
Definition lane_cap (l : lane) : nat := hsize (l_heap l).

Lemma lane_insert_ok l j b l' : lane_inv l -> lane_insert l j = Ok (b, l') ->
  lane_inv l' /\ lane_cap l' = lane_cap l /\
  (b = true -> Permutation (lane_jobs l') (j :: lane_jobs l)) /\
  (b = false -> l' = l /\ hcount (l_heap l) = 511%nat).
Proof.
  intros (I & B & N). unfold lane_insert.
  destruct (Nat.leb JOBQUEUE_MAX_SIZE (hcount (l_heap l) + 1)) eqn:E.
  - intros H; injection H as <- <-. apply Nat.leb_le in E. unfold JOBQUEUE_MAX_SIZE in *.
    repeat split; auto; try discriminate; try apply I. lia.
  - apply Nat.leb_gt in E.
    destruct (heap_insert job_before (l_heap l) j) as [h| |] eqn:E1; try discriminate. cbn [obind].
    destruct (heap_first h) as [f| |] eqn:E2; try discriminate. cbn [obind].
    intros H; injection H as <- <-.
    destruct (insert_ok job_before job_sw _ _ _ I E1) as (I' & P & Hc & Hs).
    unfold lane_inv, lane_cap, lane_jobs. cbn [l_heap l_next]. repeat split; auto; try discriminate; try apply I'; try lia.
    intros g Hg. congruence.
Qed.

Lemma heap_first_ok {A} (h : heap A) : (0 < hcount h)%nat -> heap_first h = Ok (hel h 1%nat).
Proof. intros. unfold heap_first. rewrite (proj2 (Nat.ltb_lt _ _)); auto. Qed.

Lemma lane_insert_total l j : lane_inv l -> (511 <= lane_cap l)%nat ->
  exists b l', lane_insert l j = Ok (b, l') /\ (b = true <-> (hcount (l_heap l) < 511)%nat).
Proof.
  intros (I & B & N) Hcap. unfold lane_insert, lane_cap, JOBQUEUE_MAX_SIZE in *.
  destruct (Nat.leb_spec 512 (hcount (l_heap l) + 1)).
  - exists false, l. split; auto. split; [discriminate|lia].
  - unfold heap_insert. rewrite (proj2 (Nat.ltb_lt _ _)) by lia. cbn [obind].
    rewrite heap_first_ok by (cbn; lia). cbn [obind]. do 2 eexists. split; [reflexivity|]. split; auto; lia.
Qed.

Lemma pop_lane_ok l oj l' : lane_inv l -> pop_lane l = Ok (oj, l') ->
  lane_inv l' /\ lane_cap l' = lane_cap l /\
  match oj with
  | Some j => Permutation (lane_jobs l) (j :: lane_jobs l') /\ l_next l = j_ts j /\
              (forall z, In z (lane_jobs l) -> job_before z j = false)
  | None => l' = l /\ lane_jobs l = []
  end.
Proof.
  intros (I & B & N). unfold pop_lane.
  destruct (heap_is_empty (l_heap l)) eqn:E.
  - intros H; injection H as <- <-. split; [repeat split; auto; apply I|]. split; auto. split; auto.
    unfold heap_is_empty in E. apply Nat.eqb_eq in E. unfold lane_jobs, heap_list. rewrite E. reflexivity.
  - destruct (heap_head job_before (l_heap l)) as [[j h]| |] eqn:E1; try discriminate. cbn [obind].
    destruct (head_ok job_before job_sw _ _ _ I E1) as (I' & P & M & Hc & Hs).
    assert (F : heap_first (l_heap l) = Ok j) by (apply (first_is_head job_before); eauto).
    pose proof (N _ F) as Nx.
    destruct (heap_is_empty h) eqn:E2.
    + intros H; injection H as <- <-. unfold lane_inv, lane_cap, lane_jobs. cbn [l_heap l_next].
      apply Nat.eqb_eq in E2.
      repeat split; auto; try apply I'; try lia.
      intros f Hf. unfold heap_first in Hf. rewrite E2 in Hf. discriminate.
    + destruct (heap_first h) as [f| |] eqn:E3; try discriminate. cbn [obind].
      intros H; injection H as <- <-. unfold lane_inv, lane_cap, lane_jobs. cbn [l_heap l_next].
      repeat split; auto; try apply I'; try lia. intros g Hg. congruence.
Qed.

Lemma pop_lane_total l : exists oj l', pop_lane l = Ok (oj, l') /\ (oj = None <-> hcount (l_heap l) = 0%nat).
Proof.
  unfold pop_lane. destruct (heap_is_empty (l_heap l)) eqn:E.
  - apply Nat.eqb_eq in E. do 2 eexists; split; [reflexivity|]. tauto.
  - apply Nat.eqb_neq in E. unfold heap_head. rewrite (proj2 (Nat.ltb_lt _ _)) by lia. cbn [obind].
    match goal with |- context [heap_is_empty ?h] => destruct (heap_is_empty h) eqn:E2 end.
    + do 2 eexists; split; [reflexivity|]. split; [discriminate|congruence].
    + apply Nat.eqb_neq in E2. rewrite heap_first_ok by lia. cbn [obind].
      do 2 eexists; split; [reflexivity|]. split; [discriminate|congruence].
Qed.

(** ---- sequential selection ---- *)
Lemma peek_lane_cases l qi now t acc : lane_inv l ->
  (peek_lane l qi now t acc = acc /\
     (t = false \/ hcount (l_heap l) = 0%nat \/ now <= l_next l \/ snd acc <= l_next l)) \/
  (peek_lane l qi now t acc = (Some qi, l_next l) /\ t = true /\ (0 < hcount (l_heap l))%nat /\
     l_next l < now /\ l_next l < snd acc).
Proof.
  intros I. unfold peek_lane, heap_is_empty. destruct acc as [i low]. cbn [fst snd].
  destruct t; cbn [andb]; [|left; auto].
  destruct (Z.ltb_spec (l_next l) now); cbn [andb]; [|left; split; auto].
  destruct (Nat.eqb_spec (hcount (l_heap l)) 0); cbn [negb]; [left; split; auto|].
  destruct (Z.ltb_spec (l_next l) low); [right|left; split; auto].
  repeat split; auto. lia.
Qed.

Lemma get_set_same s i l : get_lane (set_lane s i l) i = l.
Proof. destruct i; reflexivity. Qed.
Lemma get_set_other s i l : get_lane (set_lane s i l) (negb i) = get_lane s (negb i).
Proof. destruct i; reflexivity. Qed.
Lemma jq_inv_get s i : jq_inv s -> lane_inv (get_lane s i).
Proof. intros [? ?]; destruct i; auto. Qed.
Lemma jq_inv_set s i l : jq_inv s -> lane_inv l -> jq_inv (set_lane s i l).
Proof. intros [? ?]; destruct i; split; auto. Qed.
Lemma jq_jobs_get s i : Permutation (jq_jobs s) (lane_jobs (get_lane s i) ++ lane_jobs (get_lane s (negb i))).
Proof. destruct i; unfold jq_jobs, lane_jobs; cbn; [reflexivity|apply Permutation_app_comm]. Qed.

Definition caps (s : jq) (n : nat) : Prop := lane_cap (lane0 s) = n /\ lane_cap (lane1 s) = n.

Lemma jq_init_inv n : Z.of_nat n <= 32767 -> jq_inv (jq_init n) /\ caps (jq_init n) n.
Proof.
  intros H. split; [|split; reflexivity].
  assert (L : lane_inv (mkLane (heap_init job0 n) 0)).
  { split; [apply inv_init; auto|]. split; [cbn; unfold JOBQUEUE_MAX_SIZE; lia|]. intros f Hf. discriminate. }
  split; exact L.
Qed.

Lemma jq_insert_ok s j b s' n : jq_inv s -> caps s n -> jq_insert s j = Ok (b, s') ->
  jq_inv s' /\ caps s' n /\
  (b = true -> Permutation (jq_jobs s') (j :: jq_jobs s)) /\
  (b = false -> s' = s /\ hcount (l_heap (get_lane s (j_periodic j))) = 511%nat).
Proof.
  intros I C. unfold jq_insert.
  destruct (lane_insert (get_lane s (j_periodic j)) j) as [[ok l]| |] eqn:E; try discriminate. cbn [obind].
  intros H; injection H as <- <-.
  destruct (lane_insert_ok _ _ _ _ (jq_inv_get s _ I) E) as (Il & Hc & Ht & Hf).
  split; [apply jq_inv_set; auto|]. split; [|split].
  - destruct C, (j_periodic j); split; cbn in *; congruence.
  - intros Hb. specialize (Ht Hb). rewrite (jq_jobs_get _ (j_periodic j)).
    rewrite get_set_same, get_set_other, Ht. cbn [app]. apply perm_skip. symmetry. apply jq_jobs_get.
  - intros Hb. destruct (Hf Hb) as [-> ?]. split; auto. destruct s; destruct (j_periodic j); reflexivity.
Qed.

Definition least (s : jq) (j : job) : Prop := forall z, In z (jq_jobs s) -> j_ts j <= j_ts z.

Lemma jq_select_ok s now t0 t1 ret oj s' n : jq_inv s -> caps s n -> jq_select s now t0 t1 = Ok (ret, oj, s') ->
  jq_inv s' /\ caps s' n /\
  match oj with
  | Some j => ret = 0 /\ Permutation (jq_jobs s) (j :: jq_jobs s') /\ j_ts j < now /\
      (exists qi, In j (lane_jobs (get_lane s qi)) /\
         (forall z, In z (lane_jobs (get_lane s qi)) -> job_before z j = false)) /\
      (t0 = true -> t1 = true -> least s j)
  | None => s' = s /\ ret <> 0 /\
      (t0 = true -> t1 = true -> forall z, In z (jq_jobs s) -> now <= j_ts z)
  end.
Proof.
  intros I C. destruct I as [I0 I1] eqn:EI. clear EI. unfold jq_select.
  set (a0 := peek_lane (lane0 s) true now t0 (None, now + NINE_SEC)).
  set (a1 := peek_lane (lane1 s) false now t1 a0).
  pose proof (peek_lane_cases (lane0 s) true now t0 (None, now + NINE_SEC) I0) as P0. fold a0 in P0.
  pose proof (peek_lane_cases (lane1 s) false now t1 a0 I1) as P1. fold a1 in P1.
  clearbody a1 a0. cbn [snd] in P0.
  assert (LB : forall i z, In z (lane_jobs (get_lane s i)) -> l_next (get_lane s i) <= j_ts z).
  { intros i z Hz. destruct (jq_inv_get s i (conj I0 I1)) as (Ih & _ & Nx).
    unfold lane_jobs, heap_list in Hz. apply in_map_iff in Hz. destruct Hz as (k & <- & Hk). apply in_seq in Hk.
    pose proof (root_min job_before job_sw _ _ (proj1 Ih) k ltac:(lia)) as R.
    apply job_before_false in R. rewrite (Nx _ (heap_first_ok (l_heap (get_lane s i)) ltac:(lia))). lia. }
  assert (EMP : forall l, hcount (l_heap l) = 0%nat -> lane_jobs l = []).
  { intros l H. unfold lane_jobs, heap_list. rewrite H. reflexivity. }
  destruct (fst a1) as [qi|] eqn:Eq.
  - destruct (pop_lane_total (get_lane s qi)) as (oj' & l' & Ep & Hnone). rewrite Ep. cbn [obind].
    intros H; injection H as <- <- <-.
    destruct (pop_lane_ok _ _ _ (jq_inv_get s qi (conj I0 I1)) Ep) as (Il & Hc & Hj).
    split; [apply jq_inv_set; auto; split; auto|].
    split; [destruct C, qi; split; cbn in *; congruence|].
    assert (Hcnt : (0 < hcount (l_heap (get_lane s qi)))%nat /\ l_next (get_lane s qi) < now /\
                   (t0 = true -> t1 = true -> forall z, In z (jq_jobs s) -> l_next (get_lane s qi) <= j_ts z)).
    { destruct P0 as [(-> & Q0)|(-> & Ht0 & Hc0 & Hn0 & _)].
      - cbn [fst snd] in *. destruct P1 as [(-> & Q1)|(-> & Ht1 & Hc1 & Hn1 & _)]; [discriminate|].
        cbn [fst] in Eq. injection Eq as <-. cbn [get_lane] in *. repeat split; auto.
        intros -> _ z Hz. unfold jq_jobs in Hz. apply in_app_or in Hz.
        destruct Hz as [Hz|Hz].
        + destruct Q0 as [Q0|[Q0|Q0]]; [discriminate|fold (lane_jobs (lane0 s)) in Hz; rewrite (EMP _ Q0) in Hz; destruct Hz|].
          pose proof (LB true z Hz). cbn [get_lane] in *. unfold NINE_SEC in *. lia.
        + apply (LB false z Hz).
      - destruct P1 as [(-> & Q1)|(-> & Ht1 & Hc1 & Hn1 & Hlow)]; cbn [fst snd] in *; injection Eq as <-; cbn [get_lane] in *; repeat split; auto.
        + intros _ -> z Hz. unfold jq_jobs in Hz. apply in_app_or in Hz. destruct Hz as [Hz|Hz]; [apply (LB true z Hz)|].
          destruct Q1 as [Q1|[Q1|Q1]]; [discriminate|fold (lane_jobs (lane1 s)) in Hz; rewrite (EMP _ Q1) in Hz; destruct Hz|].
          pose proof (LB false z Hz). cbn [get_lane] in *. lia.
        + intros _ _ z Hz. unfold jq_jobs in Hz. apply in_app_or in Hz. destruct Hz as [Hz|Hz]; [|apply (LB false z Hz)].
          pose proof (LB true z Hz). cbn [get_lane] in *. lia. }
    destruct Hcnt as (Hcnt & Hdue & Hleast).
    destruct oj' as [j|].
    + destruct Hj as (Pj & Nj & Mj).
      repeat split; auto.
      * rewrite (jq_jobs_get s qi), Pj. cbn [app]. apply perm_skip.
        rewrite (jq_jobs_get (set_lane s qi l') qi), get_set_same, get_set_other. reflexivity.
      * lia.
      * exists qi. split; auto. rewrite Pj. left; auto.
      * intros T0 T1 z Hz. rewrite <- Nj. apply Hleast; auto.
    + exfalso. assert (hcount (l_heap (get_lane s qi)) = 0%nat) by (apply Hnone; auto). lia.
  - intros H; injection H as <- <- <-. split; [split; auto|]. split; auto. split; auto.
    assert (E1 : a1 = (None, now + NINE_SEC) /\
       (t0 = true -> t1 = true -> forall z, In z (jq_jobs s) -> now <= j_ts z)).
    { destruct P0 as [(-> & Q0)|(-> & _)].
      - destruct P1 as [(-> & Q1)|(-> & _)]; [|discriminate]. split; auto. cbn [snd] in *.
        intros -> -> z Hz. unfold jq_jobs in Hz. apply in_app_or in Hz. unfold NINE_SEC in *.
        destruct Hz as [Hz|Hz].
        + destruct Q0 as [Q0|[Q0|Q0]]; [discriminate|fold (lane_jobs (lane0 s)) in Hz; rewrite (EMP _ Q0) in Hz; destruct Hz|].
          pose proof (LB true z Hz). cbn [get_lane] in *. lia.
        + destruct Q1 as [Q1|[Q1|Q1]]; [discriminate|fold (lane_jobs (lane1 s)) in Hz; rewrite (EMP _ Q1) in Hz; destruct Hz|].
          pose proof (LB false z Hz). cbn [get_lane] in *. lia.
      - destruct P1 as [(-> & Q1)|(-> & _)]; discriminate. }
    destruct E1 as [-> E1]. split; [|exact E1]. cbn [snd].
    replace (now + NINE_SEC - now) with NINE_SEC by lia. vm_compute. discriminate.
Qed.

(** ---- whole histories, one worker at a time ---- *)
Inductive jop :=
| JSubmit (j : job)
| JPoll (now : Z) (t0 t1 : bool)                      (* take without running *)
| JPollRun (now started : Z) (t0 t1 : bool).          (* take, run, re-queue if periodic *)

(** history record: (accepted jobs, jobs handed out with the polling time) *)
Definition hist := (list job * list (Z * job))%type.
Definition resched (j : job) (started : Z) : job :=
  mkJob (j_id j) (Z.max (started + j_interval j) started) (j_prio j) (j_interval j) true.

Definition jop_step (s : jq) (h : hist) (o : jop) : outcome (jq * hist) :=
  match o with
  | JSubmit j => obind (jq_insert s j) (fun '(b, s') => Ok (s', (if b then j :: fst h else fst h, snd h)))
  | JPoll now t0 t1 =>
      obind (jq_select s now t0 t1) (fun '(_, oj, s') =>
        Ok (s', (fst h, match oj with Some j => (now, j) :: snd h | None => snd h end)))
  | JPollRun now started t0 t1 =>
      obind (jq_select s now t0 t1) (fun '(_, oj, s') =>
        match oj with
        | None => Ok (s', h)
        | Some j => obind (jq_finish s' j started) (fun s2 =>
            Ok (s2, (if j_periodic j then resched j started :: fst h else fst h, (now, j) :: snd h)))
        end)
  end.
Fixpoint jop_run (s : jq) (h : hist) (os : list jop) : outcome (jq * hist) :=
  match os with
  | [] => Ok (s, h)
  | o :: os => obind (jop_step s h o) (fun '(s', h') => jop_run s' h' os)
  end.

Definition good (s : jq) (h : hist) (n : nat) : Prop :=
  jq_inv s /\ caps s n /\ Permutation (fst h) (map snd (snd h) ++ jq_jobs s) /\
  Forall (fun x => j_ts (snd x) < fst x) (snd h).

Lemma jop_step_good s h o s' h' n : good s h n -> jop_step s h o = Ok (s', h') -> good s' h' n.
Proof.
  intros (I & C & P & D). destruct o as [j|now t0 t1|now started t0 t1]; cbn [jop_step].
  - destruct (jq_insert s j) as [[b s1]| |] eqn:E; try discriminate. cbn [obind]. intros H; injection H as <- <-.
    destruct (jq_insert_ok _ _ _ _ _ I C E) as (I' & C' & Ht & Hf). split; auto. split; auto. cbn [fst snd]. split; auto.
    destruct b.
    + rewrite (Ht eq_refl), P. rewrite Permutation_middle. reflexivity.
    + destruct (Hf eq_refl) as [-> _]. auto.
  - destruct (jq_select s now t0 t1) as [[[r oj] s1]| |] eqn:E; try discriminate. cbn [obind]. intros H; injection H as <- <-.
    destruct (jq_select_ok _ _ _ _ _ _ _ _ I C E) as (I' & C' & Hj). split; auto. split; auto. cbn [fst snd].
    destruct oj as [j|].
    + destruct Hj as (_ & Pj & Dj & _). split; [|constructor; auto].
      rewrite P, Pj. cbn [map snd app]. symmetry. apply Permutation_middle.
    + destruct Hj as (-> & _). auto.
  - destruct (jq_select s now t0 t1) as [[[r oj] s1]| |] eqn:E; try discriminate. cbn [obind].
    destruct (jq_select_ok _ _ _ _ _ _ _ _ I C E) as (I' & C' & Hj).
    destruct oj as [j|].
    + destruct Hj as (_ & Pj & Dj & _).
      unfold jq_finish. destruct (j_periodic j) eqn:Ep.
      * fold (resched j started).
        destruct (jq_insert s1 (resched j started)) as [[b s2]| |] eqn:E2; try discriminate. cbn [obind].
        destruct b; [|discriminate]. cbn [obind]. intros H; injection H as <- <-.
        destruct (jq_insert_ok _ _ _ _ _ I' C' E2) as (I2 & C2 & Ht & _).
        split; auto. split; auto. cbn [fst snd]. split; [|constructor; auto].
        rewrite (Ht eq_refl), P, Pj. cbn [map snd app].
        rewrite <- Permutation_middle. rewrite perm_swap. apply perm_skip.
        rewrite <- Permutation_middle. reflexivity.
      * cbn [obind]. intros H; injection H as <- <-. split; auto. split; auto. cbn [fst snd]. split; [|constructor; auto].
        rewrite P, Pj. cbn [map snd app]. symmetry. apply Permutation_middle.
    + intros H; injection H as <- <-. destruct Hj as (-> & _). repeat split; auto; try apply I; try apply C.
Qed.

Lemma jop_run_good os : forall s h s' h' n, good s h n -> jop_run s h os = Ok (s', h') -> good s' h' n.
Proof.
  induction os as [|o os IH]; intros s h s' h' n G H; cbn [jop_run] in H.
  - injection H as <- <-; auto.
  - destruct (jop_step s h o) as [[s1 h1]| |] eqn:E; try discriminate. cbn [obind] in H.
    eapply IH; [eapply jop_step_good; eauto|eauto].
Qed.

Lemma good_init n : Z.of_nat n <= 32767 -> good (jq_init n) ([], []) n.
Proof.
  intros H. destruct (jq_init_inv n H) as [I C]. split; auto. split; auto. split; [|constructor].
  cbn. reflexivity.
Qed.

Lemma good_bound s h n : good s h n -> (hcount (l_heap (lane0 s)) <= 511)%nat /\ (hcount (l_heap (lane1 s)) <= 511)%nat.
Proof. intros ([(_ & ? & _) (_ & ? & _)] & _). unfold JOBQUEUE_MAX_SIZE in *. lia. Qed.

(** ---- concurrency ---- *)
Definition wgood (x : world) (n : nat) : Prop :=
  jq_inv (w_q x) /\ caps (w_q x) n /\
  Permutation (w_accepted x) (map snd (w_taken x) ++ jq_jobs (w_q x)).

Lemma wstep_good x e x' n : wgood x n -> wstep x e = Ok x' -> wgood x' n.
Proof.
  intros (I & C & P). destruct e as [j|w now|w lk|w lk|w]; cbn [wstep].
  - destruct (jq_insert (w_q x) j) as [[b s1]| |] eqn:E; try discriminate. cbn [obind]. intros H; injection H as <-.
    destruct (jq_insert_ok _ _ _ _ _ I C E) as (I' & C' & Ht & Hf). split; auto. split; auto. cbn.
    destruct b.
    + rewrite (Ht eq_refl), P. apply Permutation_middle.
    + destruct (Hf eq_refl) as [-> _]. auto.
  - destruct (w_pc x w); intros H; injection H as <-; split; auto.
  - destruct (w_pc x w); intros H; injection H as <-; split; auto.
  - destruct (w_pc x w); intros H; injection H as <-; split; auto.
  - destruct (w_pc x w) as [| | |now qi]; try (intros H; injection H as <-; split; auto; fail).
    destruct (pop_lane (get_lane (w_q x) qi)) as [[oj l]| |] eqn:E; try discriminate. cbn [obind].
    intros H; injection H as <-.
    destruct (pop_lane_ok _ _ _ (jq_inv_get _ qi I) E) as (Il & Hc & Hj).
    split; [apply jq_inv_set; auto|]. split; [destruct C, qi; split; cbn in *; congruence|]. cbn [w_accepted w_taken w_q].
    destruct oj as [j|].
    + destruct Hj as (Pj & _). rewrite P. cbn [map snd app]. rewrite (jq_jobs_get (w_q x) qi), Pj. cbn [app].
      rewrite <- Permutation_middle. apply perm_skip. apply Permutation_app_head.
      rewrite (jq_jobs_get (set_lane (w_q x) qi l) qi), get_set_same, get_set_other. reflexivity.
    + destruct Hj as (-> & _). rewrite P. destruct (w_q x), qi; reflexivity.
Qed.

Lemma wrun_good es : forall x x' n, wgood x n -> wrun x es = Ok x' -> wgood x' n.
Proof.
  induction es as [|e es IH]; intros x x' n G H; cbn [wrun] in H.
  - injection H as <-; auto.
  - destruct (wstep x e) as [x1| |] eqn:E; try discriminate. cbn [obind] in H.
    eapply IH; [eapply wstep_good; eauto|eauto].
Qed.

Lemma wgood_init n : Z.of_nat n <= 32767 -> wgood (world_init n) n.
Proof. intros H. destruct (jq_init_inv n H) as [I C]. split; auto. Qed.

Lemma wstep_total x e n : wgood x n -> (511 <= n)%nat -> exists x', wstep x e = Ok x'.
Proof.
  intros (I & C & _) Hn. destruct e as [j|w now|w lk|w lk|w]; cbn [wstep]; try (destruct (w_pc x w); eauto; fail).
  - unfold jq_insert. destruct (lane_insert_total (get_lane (w_q x) (j_periodic j)) j) as (b & l & -> & _).
    + apply jq_inv_get; auto.
    + destruct C, (j_periodic j); cbn; lia.
    + cbn [obind]. eauto.
  - destruct (w_pc x w) as [| | |now qi]; eauto.
    destruct (pop_lane_total (get_lane (w_q x) qi)) as (oj & l & -> & _). cbn [obind]. eauto.
Qed.

(** A worker whose peek has not been overtaken: the chosen lane still has a due head. *)
Definition pending (q : jq) (p : wpc) : Prop :=
  match p with
  | Idle | Peek0 _ => True
  | Peek1 now acc => match fst acc with
                     | None => True
                     | Some qi => (0 < hcount (l_heap (get_lane q qi)))%nat /\ l_next (get_lane q qi) < now
                     end
  | Popping now qi => (0 < hcount (l_heap (get_lane q qi)))%nat /\ l_next (get_lane q qi) < now
  end.

(** events not taking a job away from under worker [w] *)
Definition no_other_pop (w : nat) (e : event) : Prop := match e with EvPop w' => w' = w | _ => True end.

Lemma insert_keeps_pending q j b q' p n : jq_inv q -> caps q n -> jq_insert q j = Ok (b, q') -> pending q p -> pending q' p.
Proof.
  intros I C E.
  assert (K : forall qi now, (0 < hcount (l_heap (get_lane q qi)))%nat -> l_next (get_lane q qi) < now ->
                (0 < hcount (l_heap (get_lane q' qi)))%nat /\ l_next (get_lane q' qi) < now).
  { intros qi now H1 H2. unfold jq_insert in E.
    destruct (lane_insert (get_lane q (j_periodic j)) j) as [[ok l]| |] eqn:El; try discriminate. cbn [obind] in E.
    injection E as <- <-.
    destruct (Bool.bool_dec qi (j_periodic j)) as [->|Hne].
    - rewrite get_set_same. destruct (lane_insert_ok _ _ _ _ (jq_inv_get q _ I) El) as (Il & _ & Ht & Hf).
      destruct ok; [|destruct (Hf eq_refl) as [-> _]; auto].
      specialize (Ht eq_refl).
      assert (Hc : (0 < hcount (l_heap l))%nat).
      { pose proof (Permutation_length Ht) as L. unfold lane_jobs in L. cbn [length] in L. rewrite !list_length in L. lia. }
      split; auto.
      destruct Il as (Ih & _ & Nx). rewrite (Nx _ (heap_first_ok _ Hc)).
      (* the old head is still inside *)
      destruct (jq_inv_get q (j_periodic j) I) as (_ & _ & Nx0). pose proof (Nx0 _ (heap_first_ok _ H1)) as E0.
      assert (Hin : In (hel (l_heap (get_lane q (j_periodic j))) 1%nat) (lane_jobs l)).
      { rewrite Ht. right. unfold lane_jobs, heap_list. apply in_map. apply in_seq. lia. }
      unfold lane_jobs, heap_list in Hin. apply in_map_iff in Hin. destruct Hin as (k & Ek & Hk). apply in_seq in Hk.
      pose proof (root_min job_before job_sw _ _ (proj1 Ih) k ltac:(lia)) as R. apply job_before_false in R.
      rewrite Ek in R. lia.
    - assert (qi = negb (j_periodic j)) by (destruct qi, (j_periodic j); auto; congruence). subst qi.
      rewrite get_set_other. auto. }
  destruct p as [|now|now [i low]|now qi]; cbn [pending fst]; auto.
  - destruct i as [qi|]; auto. intros [? ?]; auto.
  - intros [? ?]; auto.
Qed.

Lemma setpc_same pc w p : setpc pc w p w = p.
Proof. unfold setpc. rewrite Nat.eqb_refl. auto. Qed.
Lemma setpc_other pc w p k : k <> w -> setpc pc w p k = pc k.
Proof. intros. unfold setpc. rewrite (proj2 (Nat.eqb_neq k w)); auto. Qed.

Lemma peek_pending q (qi : bool) now lk acc : jq_inv q ->
  match fst acc with None => True | Some i => (0 < hcount (l_heap (get_lane q i)))%nat /\ l_next (get_lane q i) < now end ->
  match fst (peek_lane (get_lane q qi) qi now lk acc) with
  | None => True
  | Some i => (0 < hcount (l_heap (get_lane q i)))%nat /\ l_next (get_lane q i) < now end.
Proof.
  intros I H. destruct (peek_lane_cases (get_lane q qi) qi now lk acc (jq_inv_get q qi I)) as [(-> & _)|(-> & _ & ? & ? & _)]; auto.
  cbn [fst]. auto.
Qed.

Lemma wstep_pending x e x' w n : wgood x n -> no_other_pop w e -> pending (w_q x) (w_pc x w) ->
  wstep x e = Ok x' ->
  pending (w_q x') (w_pc x' w) /\
  (w_taken x' = w_taken x \/ exists now j, w_taken x' = (w, now, j) :: w_taken x /\ j_ts j < now).
Proof.
  intros G Q Pd. assert (G' := G). destruct G' as (I & C & _).
  destruct e as [j|w' now|w' lk|w' lk|w']; cbn [wstep].
  - destruct (jq_insert (w_q x) j) as [[b s1]| |] eqn:E; try discriminate. cbn [obind]. intros H; injection H as <-. cbn.
    split; auto. eapply insert_keeps_pending; eauto.
  - destruct (w_pc x w') eqn:Ep; intros H; injection H as <-; cbn; auto. split; auto.
    destruct (Nat.eq_dec w w') as [->|]; [rewrite setpc_same; exact Logic.I|rewrite setpc_other; auto].
  - destruct (w_pc x w') eqn:Ep; intros H; injection H as <-; cbn; auto. split; auto.
    destruct (Nat.eq_dec w w') as [->|]; [rewrite setpc_same|rewrite setpc_other; auto].
    cbn [pending]. apply (peek_pending (w_q x) true); cbn; auto.
  - destruct (w_pc x w') as [| |now acc|] eqn:Ep; intros H; injection H as <-; cbn [w_q w_pc w_taken]; auto. split; auto.
    destruct (Nat.eq_dec w w') as [->|]; [rewrite setpc_same|rewrite setpc_other; auto].
    rewrite Ep in Pd. cbn [pending] in Pd.
    pose proof (peek_pending (w_q x) false now lk acc I Pd) as K. cbn [get_lane] in K.
    destruct (fst (peek_lane (lane1 (w_q x)) false now lk acc)) as [i|]; cbn [pending]; auto.
  - cbn in Q. subst w'.
    destruct (w_pc x w) as [| | |now qi] eqn:Ep; try (intros H; injection H as <-; rewrite Ep; cbn; auto; fail).
    destruct (pop_lane (get_lane (w_q x) qi)) as [[oj l]| |] eqn:E; try discriminate. cbn [obind].
    intros H; injection H as <-. cbn [w_q w_pc w_taken]. rewrite setpc_same. split; [exact Logic.I|].
    destruct (pop_lane_ok _ _ _ (jq_inv_get _ qi I) E) as (Il & Hc & Hj). cbn [pending] in Pd.
    destruct oj as [j|]; auto. destruct Hj as (_ & Nj & _). right. exists now, j. split; auto. lia.
Qed.

Lemma wrun_pending es : forall x x' w n, wgood x n -> Forall (no_other_pop w) es -> pending (w_q x) (w_pc x w) ->
  wrun x es = Ok x' ->
  exists new, w_taken x' = new ++ w_taken x /\ Forall (fun '(w', now, j) => w' = w /\ j_ts j < now) new.
Proof.
  induction es as [|e es IH]; intros x x' w n G Q Pd H; cbn [wrun] in H.
  - injection H as <-. exists []; auto.
  - destruct (wstep x e) as [x1| |] eqn:E; try discriminate. cbn [obind] in H. inversion Q; subst.
    destruct (wstep_pending _ _ _ _ _ G H2 Pd E) as [Pd1 T1].
    destruct (IH x1 x' w n) as (new & En & Fn); auto; [eapply wstep_good; eauto|].
    destruct T1 as [T1|(now & j & T1 & Hd)].
    + exists new. rewrite En, T1. auto.
    + exists (new ++ [(w, now, j)]). rewrite En, T1, <- app_assoc. split; auto.
      apply Forall_app; split; auto.
Qed.
