(** C17: events take the first enabled rule only. *)
From Verif Require Import Base Statemachine_Model Statemachine_Spec.

(** ** Building tables *)
Lemma state_at_upd {A C} (t : table A C) i st j :
  0 <= i < Z.of_nat (length t) ->
  state_at (upd t (Z.to_nat i) (Some st)) j = if j =? i then Ok st else state_at t j.
Proof.
  intros B. unfold state_at. destruct (Z.ltb_spec j 0).
  { destruct (Z.eqb_spec j i); [lia | reflexivity]. }
  destruct (Z.eqb_spec j i) as [->|N].
  - rewrite (nth_error_nth' _ None) by (rewrite upd_length; lia).
    rewrite upd_nth_eq by lia. reflexivity.
  - destruct (Nat.lt_ge_cases (Z.to_nat j) (length t)) as [L|L].
    + rewrite (nth_error_nth' _ None) by (rewrite upd_length; lia).
      rewrite upd_nth_neq by lia. rewrite (nth_error_nth' t None) by lia. reflexivity.
    + rewrite (proj2 (nth_error_None _ _)) by (rewrite upd_length; lia).
      rewrite (proj2 (nth_error_None _ _)) by lia. reflexivity.
Qed.

Lemma state_at_bound {A C} (t : table A C) i st : state_at t i = Ok st -> 0 <= i < Z.of_nat (length t).
Proof.
  unfold state_at. destruct (Z.ltb_spec i 0); [discriminate|].
  destruct (nth_error t (Z.to_nat i)) as [[s|]|] eqn:E; intros H'; inversion H'.
  assert (Z.to_nat i < length t)%nat by (apply nth_error_Some; congruence). lia.
Qed.

Section Machine.
Context {A C E W : Type}.
Variable act : A -> E -> machine W -> outcome (machine W).
Variable cond : C -> E -> machine W -> outcome (bool * machine W).

Lemma scan_refused t st old ev pre post m m' :
  refused cond ev pre m m' ->
  scan act cond t st old (pre ++ post) ev m = scan act cond t st old post ev m'.
Proof.
  induction 1 as [m|r rs m m' H _ IH|r rs c m m1 m' Ha Hc Hd _ IH]; cbn [app scan].
  - reflexivity.
  - rewrite H. exact IH.
  - rewrite Ha. unfold test. rewrite Hc, Hd. cbn [obind]. exact IH.
Qed.

(** Whatever the callbacks do: the rules before the first enabled one have no
    effect but that of their conditions; the action runs before the exit function,
    which runs before the entry function of the new state, each once; rules after
    it are not looked at.  [Hkeep]: the callbacks did not themselves take the
    machine to another state (see [C17_follow_up_refuted] for the other case). *)
Theorem C17_effects : forall (t : table A C) ev m st pre r post m1 m2 m3 m4 st' m5,
  well_formed t -> state_at t (cur m) = Ok st ->
  s_rules st = pre ++ r :: post ->
  refused cond ev pre m m1 ->
  taken cond ev r m1 m2 ->
  runs act ev (r_action r) m2 m3 ->
  (if r_target r =? cur m then m4 = m3 else runs act ev (s_exit st) m3 m4) ->
  cur m4 = cur m ->
  state_at t (r_target r) = Ok st' ->
  (if r_target r =? cur m then m5 = mkmachine (r_target r) (world m4)
   else runs act ev (s_enter st') (mkmachine (r_target r) (world m4)) m5) ->
  invoke act cond t ev m = Ok (true, m5).
Proof.
  intros t ev m st pre r post m1 m2 m3 m4 st' m5 WF Hst Hrs Href [Hact Htk] Hrun Hexit Hkeep Hst' Henter.
  destruct (WF _ _ Hst) as (Hid & _ & Hex & _).
  destruct (WF _ _ Hst') as (_ & Hen & _ & _).
  unfold invoke. rewrite Hst. cbn [obind]. rewrite Hrs, (scan_refused _ _ _ _ _ _ _ _ Href).
  cbn [scan]. rewrite Hact.
  assert (T : test cond r ev m1 = Ok (true, m2)).
  { unfold test. destruct (r_cond r); [exact Htk | subst; reflexivity]. }
  rewrite T. cbn [obind]. unfold fire.
  assert (R : call_checked act (r_action r) ev m2 = Ok m3).
  { unfold call_checked. destruct (r_action r); cbn [runs] in Hrun; [exact Hrun | subst; reflexivity]. }
  rewrite R. cbn [obind]. rewrite Hid.
  destruct (r_target r =? cur m) eqn:E1; cbn [negb obind].
  - subst m4 m5. rewrite Hkeep, Z.eqb_refl, Hst'. reflexivity.
  - unfold call. destruct (s_exit st) as [a|]; [|congruence]. cbn [runs] in Hexit. rewrite Hexit. cbn [obind].
    rewrite Hkeep, Z.eqb_refl, Hst'. cbn [obind].
    destruct (s_enter st') as [b|]; [|congruence]. cbn [runs] in Henter. rewrite Henter. reflexivity.
Qed.

(** If no rule is enabled nothing happens but the evaluation of the conditions. *)
Theorem C17_no_rule : forall (t : table A C) ev m st m',
  state_at t (cur m) = Ok st -> refused cond ev (s_rules st) m m' ->
  invoke act cond t ev m = Ok (false, m').
Proof.
  intros t ev m st m' Hst Href. unfold invoke. rewrite Hst. cbn [obind].
  pose proof (scan_refused t st (cur m) ev (s_rules st) [] m m' Href) as S.
  rewrite app_nil_r in S. rewrite S. reflexivity.
Qed.

(** With a well formed table and callbacks that do not fail themselves and leave
    the machine in a state of the table, no event can crash the machine, and it
    stays in a state of the table. *)
Definition sane (t : table A C) (m : machine W) : Prop := exists st, state_at t (cur m) = Ok st.

Lemma fire_sane t st old r ev m :
  well_formed t -> state_at t old = Ok st -> In r (s_rules st) ->
  (forall a m, sane t m -> exists m', act a ev m = Ok m' /\ sane t m') ->
  sane t m -> exists m', fire act t st old r ev m = Ok m' /\ sane t m'.
Proof.
  intros WF Hst Hin Hact Hs. destruct (WF _ _ Hst) as (Hid & Hen & Hex & Htg).
  destruct (Htg _ Hin) as (st' & Hst'). destruct (WF _ _ Hst') as (_ & Hen' & _ & _).
  unfold fire.
  assert (H1 : exists m1, call_checked act (r_action r) ev m = Ok m1 /\ sane t m1).
  { unfold call_checked. destruct (r_action r) as [a|]; [apply Hact; auto | eauto]. }
  destruct H1 as (m1 & -> & S1). cbn [obind].
  assert (Hc : forall f m, f <> None -> sane t m -> exists m', call act f ev m = Ok m' /\ sane t m').
  { intros [a|] ? N ?; [apply Hact; auto | congruence]. }
  set (cr := negb (r_target r =? s_id st)).
  assert (H2 : exists m2, (if cr then call act (s_exit st) ev m1 else Ok m1) = Ok m2 /\ sane t m2).
  { destruct cr; [apply Hc; auto | eauto]. }
  destruct H2 as (m2 & -> & S2). cbn [obind].
  destruct (cur m2 =? old); cbn [obind].
  - rewrite Hst'. cbn [obind]. destruct cr; [apply Hc; auto; eexists; exact Hst' |].
    eexists; split; [reflexivity | eexists; exact Hst'].
  - destruct cr; [apply Hc; auto | eauto].
Qed.

Theorem C17_never_crashes : forall (t : table A C) ev m,
  well_formed t -> sane t m ->
  (forall a m, sane t m -> exists m', act a ev m = Ok m' /\ sane t m') ->
  (forall c m, sane t m -> exists b m', cond c ev m = Ok (b, m') /\ sane t m') ->
  exists b m', invoke act cond t ev m = Ok (b, m') /\ sane t m'.
Proof.
  intros t ev m WF Hs Hact Hcond. unfold invoke. destruct (Hs) as (st & Hst). rewrite Hst. cbn [obind].
  assert (G : forall rs m, (forall r, In r rs -> In r (s_rules st)) -> sane t m ->
    exists b m', scan act cond t st (cur m) rs ev m = scan act cond t st (cur m) rs ev m /\
                 forall old, state_at t old = Ok st -> scan act cond t st old rs ev m = Ok (b, m') /\ sane t m').
  2:{ destruct (G (s_rules st) m (fun r H => H) Hs) as (b & m' & _ & H). exists b, m'. apply H. exact Hst. }
  induction rs as [|r rs IH]; intros m0 Hin S0.
  - exists false, m0. split; [reflexivity|]. intros old _. split; [reflexivity | exact S0].
  - cbn [scan]. destruct (r_active r).
    + assert (T : exists b m1, test cond r ev m0 = Ok (b, m1) /\ sane t m1).
      { unfold test. destruct (r_cond r); [apply Hcond; auto | eauto]. }
      destruct T as (b & m1 & -> & S1). cbn [obind]. destruct b.
      * destruct (fire_sane t st (cur m) r ev m1 WF Hst (Hin r (or_introl eq_refl)) Hact S1) as (m2 & H2 & S2).
        exists true, m2. split; [reflexivity|]. intros old Ho.
        assert (old = cur m) as -> by (pose proof (proj1 (WF _ _ Ho)); pose proof (proj1 (WF _ _ Hst)); congruence).
        rewrite H2. cbn [obind]. auto.
      * destruct (IH m1 (fun r' H => Hin r' (or_intror H)) S1) as (b & m2 & _ & H). exists b, m2.
        split; [reflexivity | exact H].
    + destruct (IH m0 (fun r' H => Hin r' (or_intror H)) S0) as (b & m2 & _ & H). exists b, m2.
      split; [reflexivity | exact H].
Qed.
End Machine.

(** ** The traced machine *)
Section Trace.
Context {A C E : Type}.
Variable holds : C -> E -> bool.

Lemma ran_app (l l' : list (@obs A C)) : ran (l ++ l') = ran l ++ ran l'.
Proof. induction l as [|[c|a] l IH]; cbn [ran app]; rewrite ?IH; reflexivity. Qed.

Lemma enabled_dec (r : rule A C) ev : {enabled holds r ev} + {~ enabled holds r ev}.
Proof.
  unfold enabled. destruct (r_active r); [|right; intros [H _]; discriminate].
  destruct (r_cond r) as [c|]; [|left; auto].
  destruct (holds c ev); [left; auto | right; intros [_ H]; discriminate].
Qed.

Lemma refused_trace ev (rs : list (rule A C)) (m : machine (list (@obs A C))) :
  Forall (fun r => ~ enabled holds r ev) rs ->
  exists w, refused (trace_cond holds) ev rs m (mkmachine (cur m) w) /\ ran w = ran (world m).
Proof.
  revert m; induction rs as [|r rs IH]; intros m F.
  - exists (world m). split; [destruct m; constructor | reflexivity].
  - inversion F as [|? ? N F']; subst. unfold enabled in N.
    destruct (r_active r) eqn:Ea.
    + destruct (r_cond r) as [c|] eqn:Ec; [|exfalso; apply N; auto].
      destruct (holds c ev) eqn:Eh; [exfalso; apply N; auto|].
      destruct (IH (mkmachine (cur m) (world m ++ [Asked c])) F') as (w & Hr & Hw).
      exists w. split.
      * eapply refused_condition; eauto. unfold trace_cond. rewrite Eh. reflexivity.
      * rewrite Hw. cbn [world]. rewrite ran_app. cbn [ran]. apply app_nil_r.
    + destruct (IH m F') as (w & Hr & Hw). exists w. split; [apply refused_inactive; auto | exact Hw].
Qed.

(** For every table, state and event: the first enabled rule of the current
    state is the only one that fires; its action runs, and when it leaves the
    state the exit function and then the entry function of its target run, each
    exactly once; the machine is then in the target of the rule. *)
Theorem C17_first_enabled : forall (t : table A C) ev (m : machine (list obs)) st pre r post,
  well_formed t -> state_at t (cur m) = Ok st ->
  s_rules st = pre ++ r :: post ->
  Forall (fun r' => ~ enabled holds r' ev) pre ->
  enabled holds r ev ->
  exists st' w,
    state_at t (r_target r) = Ok st' /\
    invoke trace_act (trace_cond holds) t ev m = Ok (true, mkmachine (r_target r) w) /\
    ran w = ran (world m) ++ must_run st r st'.
Proof.
  intros t ev m st pre r post WF Hst Hrs F [Ha Hc].
  destruct (WF _ _ Hst) as (Hid & _ & Hex & Htg).
  destruct (Htg r) as (st' & Hst'). { rewrite Hrs. apply in_or_app; right; left; reflexivity. }
  destruct (WF _ _ Hst') as (_ & Hen & _ & _).
  destruct (refused_trace ev pre m F) as (w1 & Hr1 & Hw1).
  set (w2 := match r_cond r with None => w1 | Some c => w1 ++ [Asked c] end).
  set (w3 := w2 ++ map Ran (opt (r_action r))).
  set (w4 := if r_target r =? cur m then w3 else w3 ++ map Ran (opt (s_exit st))).
  set (w5 := if r_target r =? cur m then w4 else w4 ++ map Ran (opt (s_enter st'))).
  exists st', w5. split; [exact Hst'|]. split.
  - eapply (C17_effects trace_act (trace_cond holds) t ev m st pre r post
              (mkmachine (cur m) w1) (mkmachine (cur m) w2) (mkmachine (cur m) w3) (mkmachine (cur m) w4) st'); eauto.
    + split; [exact Ha|]. subst w2. destruct (r_cond r) as [c|]; [|reflexivity].
      unfold trace_cond. rewrite Hc. reflexivity.
    + subst w3. destruct (r_action r); cbn; [reflexivity|]. rewrite app_nil_r. reflexivity.
    + subst w4. destruct (r_target r =? cur m); [reflexivity|].
      destruct (s_exit st); [reflexivity | congruence].
    + subst w5. destruct (r_target r =? cur m); [reflexivity|].
      destruct (s_enter st'); [reflexivity | congruence].
  - assert (R : forall (l : list A), ran (map (@Ran A C) l) = l) by (induction l; cbn [map ran]; congruence).
    assert (Hw2 : ran w2 = ran (world m)).
    { subst w2. destruct (r_cond r); [rewrite ran_app; cbn [ran]; rewrite app_nil_r|]; exact Hw1. }
    unfold must_run. rewrite Hid. subst w5 w4 w3.
    destruct (r_target r =? cur m); rewrite !ran_app, !R, Hw2, <- ?app_assoc, ?app_nil_r; reflexivity.
Qed.

(** With no enabled rule nothing is run and the state is unchanged. *)
Theorem C17_none_enabled : forall (t : table A C) ev (m : machine (list obs)) st,
  state_at t (cur m) = Ok st ->
  Forall (fun r => ~ enabled holds r ev) (s_rules st) ->
  exists w, invoke trace_act (trace_cond holds) t ev m = Ok (false, mkmachine (cur m) w) /\ ran w = ran (world m).
Proof.
  intros t ev m st Hst F. destruct (refused_trace ev _ m F) as (w & Hr & Hw).
  exists w. split; [eapply C17_no_rule; eauto | exact Hw].
Qed.

(** The two cases above are exhaustive. *)
Theorem C17_cases : forall (st : sstate A C) ev,
  Forall (fun r => ~ enabled holds r ev) (s_rules st) \/
  exists pre r post, s_rules st = pre ++ r :: post /\ Forall (fun r' => ~ enabled holds r' ev) pre /\ enabled holds r ev.
Proof.
  intros st ev. induction (s_rules st) as [|r rs IH]; [left; constructor|].
  destruct (enabled_dec r ev) as [He|He].
  - right. exists [], r, rs. auto.
  - destruct IH as [F|(pre & r' & post & -> & F & He')].
    + left. constructor; auto.
    + right. exists (r :: pre), r', post. auto.
Qed.

(** The rules of a state are exactly the declared ones, in the order of their
    declaration. *)
Theorem C17_table : forall (t : table A C) s r st,
  state_at t s = Ok st -> Z.of_nat (length (s_rules st)) < 254 ->
  exists t', add_transition t s r = Ok t' /\
    (exists st', state_at t' s = Ok st' /\ s_rules st' = s_rules st ++ [r] /\ s_id st' = s_id st /\
                 s_enter st' = s_enter st /\ s_exit st' = s_exit st) /\
    forall s', s' <> s -> state_at t' s' = state_at t s'.
Proof.
  intros t s r st Hst L. unfold add_transition. rewrite Hst. cbn [obind].
  destruct (Z.ltb_spec (Z.of_nat (length (s_rules st)) + 1) 255); [|lia].
  eexists. split; [reflexivity|]. pose proof (state_at_bound _ _ _ Hst) as B. split.
  - rewrite state_at_upd by exact B. rewrite Z.eqb_refl. eexists; split; [reflexivity|]. cbn. auto.
  - intros s' N. rewrite state_at_upd by exact B. destruct (Z.eqb_spec s' s); [contradiction | reflexivity].
Qed.
End Trace.

(** ** A concrete machine: a door (closed 0, open 1, locked 2) *)
Inductive dact := Creak | Turn | Enter (s : Z) | Leave (s : Z).
Inductive dcond := IsPush | IsKey.
Inductive dev := Push | Key.
Definition dholds (c : dcond) (e : dev) : bool :=
  match c, e with IsPush, Push => true | IsKey, Key => true | _, _ => false end.
Definition door : list (decl dact dcond) :=
  [DState 0 (Some (Enter 0)) (Some (Leave 0)); DState 1 (Some (Enter 1)) (Some (Leave 1));
   DState 2 (Some (Enter 2)) (Some (Leave 2));
   DRule 0 2 (Some Turn) (Some IsKey); DRule 0 1 (Some Creak) (Some IsPush); DRule 0 2 None None;
   DRule 1 0 None None; DRule 2 2 (Some Creak) (Some IsPush); DRule 2 0 (Some Turn) (Some IsKey)].

(** A push opens the closed door although a later rule is enabled too. *)
Example C17_ex :
  obind (declare_all [None; None; None] door) (fun t =>
  obind (invoke trace_act (trace_cond dholds) t Push (mkmachine 0 [])) (fun '(b, m) =>
  obind (invoke trace_act (trace_cond dholds) t Push (mkmachine 2 [])) (fun '(b2, m2) =>
  Ok (b, cur m, ran (world m), b2, cur m2, ran (world m2)))))
  = Ok (true, 1, [Creak; Leave 0; Enter 1], true, 2, [Creak]).
Proof. vm_compute. reflexivity. Qed.

(** The hypotheses of [C17_first_enabled] hold for it. *)
Example C17_ex_meets : exists t, declare_all [None; None; None] door = Ok t /\ well_formed t.
Proof.
  eexists. split; [vm_compute; reflexivity|].
  intros i st H. pose proof (state_at_bound _ _ _ H) as B. cbn [length] in B.
  assert (i = 0 \/ i = 1 \/ i = 2) as [->|[->| ->]] by lia;
    cbn in H; injection H as <-; cbn; repeat split; try discriminate;
    intros r Hr; cbn in Hr; intuition subst; eexists; cbn; reflexivity.
Qed.

(** ** Where the code differs

    If an action itself takes the machine to another state (it handles a further
    event), the entry function of the state that was left runs once more
    (np_statemachine.c:56-67): here the machine goes from 0 to 2 while the action
    of the rule from 0 to 1 runs; afterwards the entry function of state 0 runs
    although the machine is, and stays, in state 2. *)
Definition jump_act (a : dact) (ev : dev) (m : machine (list dact)) : outcome (machine (list dact)) :=
  match a with
  | Creak => Ok (mkmachine 2 (world m ++ [Creak]))
  | _ => Ok (mkmachine (cur m) (world m ++ [a]))
  end.
Definition door_cond (c : dcond) (ev : dev) (m : machine (list dact)) : outcome (bool * machine (list dact)) :=
  Ok (dholds c ev, m).

Theorem C17_follow_up_refuted :
  obind (declare_all [None; None; None] door) (fun t =>
  obind (invoke jump_act door_cond t Push (mkmachine 0 [])) (fun '(b, m) => Ok (b, cur m, world m)))
  = Ok (true, 2, [Creak; Leave 0; Enter 0]).
Proof. vm_compute. reflexivity. Qed.

(** The explicit transition gives up at the first rule to the target whose
    condition fails, even when a later rule to the same target is enabled. *)
Theorem C17_explicit_refuted :
  obind (declare_all [None; None; None] door) (fun t =>
  obind (transition trace_act (trace_cond dholds) t 2 Push (mkmachine 0 [])) (fun '(r, m) => Ok (r, cur m, ran (world m))))
  = Ok (Condition_not_met, 0, []).
Proof. vm_compute. reflexivity. Qed.

Print Assumptions C17_effects.
Print Assumptions C17_no_rule.
Print Assumptions C17_never_crashes.
Print Assumptions C17_first_enabled.
Print Assumptions C17_none_enabled.
Print Assumptions C17_cases.
Print Assumptions C17_table.
Print Assumptions C17_follow_up_refuted.
Print Assumptions C17_explicit_refuted.
