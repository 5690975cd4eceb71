(** Properties that need activations not to nest on one key. *)
From Verif Require Import Base Statemachine_Model Key_Model Key_Spec Key_Proofs.

(** At most one activation; until it sets the state, the state is the one it started in. *)
Definition flat (x : instance) : Prop :=
  match i_frames x with
  | [] => True
  | [f] => match f_phase f with Enter _ => True | _ => i_cur x = f_old f end
  | _ => False
  end.

(** ** Alias type flag *)
Lemma alias_bit ty : flag ty type_alias = Z.testbit ty 1.
Proof.
  unfold flag, type_alias. destruct (Z.testbit ty 1) eqn:B.
  - apply Z.eqb_eq. apply Z.bits_inj'. intros n Hn. rewrite Z.land_spec.
    destruct (Z.eq_dec n 1) as [->|N]; [rewrite B; reflexivity|].
    replace (Z.testbit 2 n) with false; [apply andb_false_r|].
    symmetry. change 2 with (2 ^ 1). apply Z.pow2_bits_false. lia.
  - apply Z.eqb_neq. intros E. assert (Z.testbit (Z.land ty 2) 1 = true) by (rewrite E; reflexivity).
    rewrite Z.land_spec, B in H. discriminate.
Qed.

Lemma type_after_alias a v e ty : a <> A_alias_set -> a <> A_alias_set_node ->
  flag ty type_alias = false -> flag (type_after a v e ty) type_alias = false.
Proof.
  intros N1 N2 H. rewrite alias_bit in *.
  assert (L : forall k, Z.testbit k 1 = false -> Z.testbit (Z.lor ty k) 1 = false)
    by (intros k Hk; rewrite Z.lor_spec, H, Hk; reflexivity).
  destruct a; cbn [type_after]; try congruence; try exact H; try reflexivity; try (apply L; reflexivity).
  - destruct (e_data e); try exact H. destruct (flag (tk_type t) aaatoken_handshake); [apply L; reflexivity|].
    destruct (flag (tk_type t) aaatoken_node); [|exact H]. destruct (v_first_identity v); [|apply L; reflexivity].
    rewrite Z.lor_spec, L by reflexivity. reflexivity.
  - destruct (v_network_failed v); [reflexivity|exact H].
  - rewrite Z.ldiff_spec, H. reflexivity.
Qed.

(** ** Table facts *)
Definition chk_alias (id : Z) (r : rule action condition) : bool :=
  (negb (r_target r =? UNUSED) || (id =? UNUSED)) &&
  match r_action r with
  | None => true
  | Some A_alias_set | Some A_alias_set_node => id =? UNUSED
  | Some A_alias_shutdown => id =? IN_USE_ALIAS
  | Some a =>
      negb (receives a) ||
      match r_cond r with
      | Some C_is_crypted_message | Some C_is_join_in_message | Some C_is_usr_in_message | Some C_is_dht_message
      | Some C_is_pheromone_message | Some C_is_discovery_message | Some C_is_forward_message => true
      | _ => false
      end
  end.
Lemma table_alias : rules_ok chk_alias = true.
Proof. vm_compute. reflexivity. Qed.
Definition plain (o : option action) : bool :=
  match o with
  | Some A_alias_set | Some A_alias_set_node | Some A_alias_shutdown | Some A_property_lifecycle_set => false
  | Some a => negb (receives a)
  | None => true
  end.
Definition chk_alias_state (st : sstate action condition) : bool := plain (s_enter st) && plain (s_exit st).
Lemma table_alias_state : states_ok chk_alias_state = true.
Proof. vm_compute. reflexivity. Qed.

Definition noop (o : option action) : bool := match o with Some A_keystate_noop => true | _ => false end.
Definition chk_hold (id : Z) (r : rule action condition) : bool :=
  match r_action r with
  | Some A_property_lifecycle_set =>
      ((id =? IN_USE_MSGPROPERTY) && (r_target r =? ON_HOLD_MSGPROPERTY)) ||
      ((id =? ON_HOLD_MSGPROPERTY) &&
       match r_cond r with Some C_is_msgproperty_lifecycle_enable => true | _ => false end)
  | _ => negb (id =? ON_HOLD_MSGPROPERTY)
  end.
Lemma table_hold : rules_ok chk_hold = true.
Proof. vm_compute. reflexivity. Qed.
Definition chk_hold_state (st : sstate action condition) : bool :=
  (negb (s_id st =? IN_USE_MSGPROPERTY) || noop (s_exit st)) && (negb (s_id st =? ON_HOLD_MSGPROPERTY) || noop (s_enter st)).
Lemma table_hold_state : states_ok chk_hold_state = true.
Proof. vm_compute. reflexivity. Qed.

(** ** Invariants of one key object *)

(** After the shutdown of its connection. *)
Definition off (x : instance) : Prop :=
  i_cur x <> UNUSED /\ flag (i_type x) type_alias = false /\
  match i_frames x with
  | [f] => f_old f <> UNUSED /\
           match f_phase f with
           | Act r => match r_action r with Some a => receives a = false | None => True end
           | _ => True
           end
  | _ => True
  end.

(** While a subject is disabled: the last request that was honoured was to disable it. *)
Definition held (tr : list obs) (i : nat) : Prop :=
  exists l1 m d e l2, tr = l1 ++ Ran i m d A_property_lifecycle_set e :: l2 /\ disables e /\
    forall m' d' e', ~ In (Ran i m' d' A_property_lifecycle_set e') l1.

Definition paused (x : instance) : Prop :=
  match i_frames x with
  | [f] =>
      match f_phase f with
      | Exit r | Set_ r => f_old f = IN_USE_MSGPROPERTY /\ r_target r = ON_HOLD_MSGPROPERTY
      | Enter fo => i_cur x = ON_HOLD_MSGPROPERTY /\ fo = Some A_keystate_noop
      | _ => f_old f = ON_HOLD_MSGPROPERTY /\ i_cur x = ON_HOLD_MSGPROPERTY
      end
  | _ => i_cur x = ON_HOLD_MSGPROPERTY
  end.

Definition FInv (s : system) : Prop :=
  Inv s /\
  (forall i, disconnected (trace s) i \/ held (trace s) i -> (i < length (insts s))%nat) /\
  (forall l1 l2 i n d a e, trace s = l1 ++ Ran i n d a e :: l2 ->
     (disconnected l2 i -> receives a = false) /\
     (held l2 i -> a = A_keystate_noop \/ (a = A_property_lifecycle_set /\ enables e))) /\
  forall i x, nth_error (insts s) i = Some x ->
    flat x /\ (disconnected (trace s) i -> off x) /\ (held (trace s) i -> paused x).

Lemma disconnected_app o tr i : disconnected (o ++ tr) i ->
  disconnected tr i \/ exists n d e, In (Ran i n d A_alias_shutdown e) o.
Proof. intros (n & d & e & H). apply in_app_or in H as [H|H]; [right|left]; exists n, d, e; exact H. Qed.

Lemma held_app o tr i : held (o ++ tr) i ->
  (held tr i /\ forall m d e, ~ In (Ran i m d A_property_lifecycle_set e) o) \/
  exists m d e, In (Ran i m d A_property_lifecycle_set e) o /\ disables e.
Proof.
  induction o as [|z o IH]; intros (l1 & m & d & e & l2 & E & D & No).
  - left. split; [exists l1, m, d, e, l2; auto|]. intros m' d' e' [].
  - destruct l1 as [|y l1]; cbn in E; injection E as -> E.
    + right. exists m, d, e. split; [left; reflexivity|exact D].
    + destruct IH as [[Hh Ho]|(m' & d' & e' & Hi & Di)].
      * exists l1, m, d, e, l2. split; [exact E|]. split; [exact D|]. intros m' d' e' Q. apply (No m' d' e'). right. exact Q.
      * left. split; [exact Hh|]. intros m' d' e' [Q|Q]; [|eapply Ho; eauto]. subst y.
        apply (No m' d' e'). left. reflexivity.
      * right. exists m', d', e'. split; [right; exact Hi|exact Di].
Qed.

(** What an activation may run, by phase. *)
Lemma act_rule f tr rn i d r a : frame_ok tr rn i d f -> f_phase f = Act r -> r_action r = Some a ->
  chk_alias (f_old f) r = true /\ chk_hold (f_old f) r = true /\ passed tr i (f_run f) (f_event f) r.
Proof.
  intros (St & _ & _ & _ & Ph) P A. rewrite P in Ph. destruct Ph as [Ir Ps].
  split; [exact (rule_fact _ _ _ _ table_alias St Ir)|]. split; [exact (rule_fact _ _ _ _ table_hold St Ir)|exact Ps].
Qed.

Lemma side_plain f tr rn i d a : frame_ok tr rn i d f -> phase_action f = Some a ->
  (forall r, f_phase f <> Act r) -> plain (Some a) = true.
Proof.
  intros (St & _ & _ & _ & Ph) P No. unfold phase_action in P.
  destruct (f_phase f) as [rs|r|r|r|fo]; try discriminate; [destruct (No r eq_refl)| |].
  - pose proof (state_fact _ _ _ table_alias_state St) as K. unfold chk_alias_state in K. rewrite P in K.
    rewrite andb_true_iff in K. apply K.
  - subst fo. destruct Ph as (_ & id & st & T & E). pose proof (state_fact _ _ _ table_alias_state T) as K.
    unfold chk_alias_state in K. rewrite <- E in K. rewrite andb_true_iff in K. apply K.
Qed.

Lemma next_flat x f x' v : flat x -> i_frames x = [f] ->
  i_cur x' = next_cur x f -> next_frames x f [] (i_frames x') v -> flat x'.
Proof.
  intros Fl Fr Cx Fx. unfold flat in *. rewrite Fr in Fl. unfold next_cur in Cx. unfold next_frames in Fx.
  destruct (f_phase f) as [[|r rs]|r|r|r|fo] eqn:P.
  - rewrite Fx. exact I.
  - destruct Fx as (p & -> & [->|[-> _]]); cbn; congruence.
  - destruct Fx as (p & -> & [[-> _]|[-> _]]); cbn; congruence.
  - rewrite Fx. cbn. congruence.
  - destruct Fx as [[_ ->]|[_ (st & -> & _)]]; cbn; exact I.
  - rewrite Fx. exact I.
Qed.

Lemma phase_act_dec f : (exists r, f_phase f = Act r) \/ forall r, f_phase f <> Act r.
Proof. destruct (f_phase f); try (right; discriminate). left; eauto. Qed.

Lemma phase_rule f tr rn i d r : frame_ok tr rn i d f -> f_phase f = Act r \/ f_phase f = Set_ r \/ f_phase f = Exit r ->
  In r (s_rules (f_state f)).
Proof. intros (St & _ & _ & _ & Ph) [P|[P|P]]; rewrite P in Ph; apply Ph. Qed.

Lemma alias_needed c ty d v e :
  match c with
  | C_is_crypted_message | C_is_join_in_message | C_is_usr_in_message | C_is_dht_message
  | C_is_pheromone_message | C_is_discovery_message | C_is_forward_message => true
  | _ => false
  end = true -> holds c ty d v e = true -> flag ty type_alias = true.
Proof.
  intros K H. destruct c; try discriminate K; cbn [holds] in H; unfold is_forward in H;
    rewrite ?andb_true_iff in H; tauto.
Qed.

Lemma off_next tr rn i x f v x' : off x -> flat x -> i_frames x = [f] -> frame_ok tr rn i (i_key x) f ->
  i_cur x' = next_cur x f -> next_frames x f [] (i_frames x') v ->
  i_type x' = match phase_action f with Some a => type_after a v (f_event f) (i_type x) | None => i_type x end ->
  off x'.
Proof.
  intros (Oc & Ot & Of) Fl Fr Ok Cx Fx Tx. rewrite Fr in Of. destruct Of as [Oo Oa]. pose proof Ok as (St & _ & _ & _ & Ph).
  split; [|split].
  - rewrite Cx. unfold next_cur. destruct (f_phase f) as [rs|r|r|r|fo] eqn:P; auto.
    destruct (i_cur x =? f_old f); auto. destruct Ph as [Ir _].
    pose proof (rule_fact _ _ _ _ table_alias St Ir) as K. unfold chk_alias in K. rewrite andb_true_iff in K.
    destruct K as [K _]. lia.
  - rewrite Tx. destruct (phase_action f) as [a|] eqn:Pa; [|exact Ot].
    assert (NA : a <> A_alias_set /\ a <> A_alias_set_node).
    { destruct (phase_act_dec f) as [[r P]|P].
      - assert (A : r_action r = Some a) by (unfold phase_action in Pa; rewrite P in Pa; exact Pa).
        destruct (act_rule _ _ _ _ _ _ _ Ok P A) as (K & _). unfold chk_alias in K. rewrite A in K.
        rewrite andb_true_iff in K. destruct K as [_ K]. split; intros ->; lia.
      - pose proof (side_plain _ _ _ _ _ _ Ok Pa P) as K. split; intros ->; discriminate. }
    apply type_after_alias; tauto.
  - unfold next_frames in Fx. destruct (f_phase f) as [[|r rs]|r|r|r|fo] eqn:P.
    + rewrite Fx. exact I.
    + assert (Ir : In r (s_rules (f_state f))) by (apply Ph; left; reflexivity).
      pose proof (rule_fact _ _ _ _ table_alias St Ir) as K. unfold chk_alias in K. rewrite andb_true_iff in K. destruct K as [_ K].
      destruct Fx as (p & -> & [->|[-> Hc]]); [cbn; auto|]. cbn. split; [exact Oo|].
      destruct (r_action r) as [a|]; [|exact I]. destruct (receives a) eqn:Ra; [exfalso|reflexivity].
      assert (Nf : forall c, r_cond r = Some c -> match c with
         | C_is_crypted_message | C_is_join_in_message | C_is_usr_in_message | C_is_dht_message
         | C_is_pheromone_message | C_is_discovery_message | C_is_forward_message => true
         | _ => false end = true -> False).
      { intros c Ec Kc. rewrite Ec in Hc. rewrite (alias_needed _ _ _ _ _ Kc Hc) in Ot. discriminate. }
      destruct (r_cond r) as [c|]; [apply (Nf c eq_refl)|]; destruct a; discriminate || exact K.
    + destruct Fx as (p & -> & [[-> _]|[-> _]]); cbn; auto.
    + rewrite Fx. cbn; auto.
    + destruct Fx as [[_ ->]|[_ (st & -> & _)]]; [exact I|cbn; auto].
    + rewrite Fx. exact I.
Qed.

Lemma off_start tr rn i x f v x' : flat x -> i_frames x = [f] -> frame_ok tr rn i (i_key x) f ->
  i_cur x' = next_cur x f -> next_frames x f [] (i_frames x') v ->
  i_type x' = match phase_action f with Some a => type_after a v (f_event f) (i_type x) | None => i_type x end ->
  phase_action f = Some A_alias_shutdown -> off x'.
Proof.
  intros Fl Fr Ok Cx Fx Tx Pa. destruct (phase_act_dec f) as [[r P]|P];
    [|pose proof (side_plain _ _ _ _ _ _ Ok Pa P) as K; discriminate].
  assert (A : r_action r = Some A_alias_shutdown) by (unfold phase_action in Pa; rewrite P in Pa; exact Pa).
  destruct (act_rule _ _ _ _ _ _ _ Ok P A) as (K & _). unfold chk_alias in K. rewrite A in K.
  rewrite andb_true_iff in K. destruct K as [_ K]. unfold flat in Fl. rewrite Fr, P in Fl.
  assert (Eo : f_old f = IN_USE_ALIAS) by lia.
  unfold next_cur in Cx. rewrite P in Cx. unfold next_frames in Fx. rewrite P in Fx.
  split; [rewrite Cx, Fl, Eo; discriminate|]. split; [rewrite Tx, Pa; reflexivity|].
  destruct Fx as (p & -> & [[-> _]|[-> _]]); cbn; rewrite Eo; split; auto; discriminate.
Qed.

Lemma paused_next tr rn i x f v x' : good tr -> paused x -> flat x -> i_frames x = [f] -> frame_ok tr rn i (i_key x) f ->
  i_cur x' = next_cur x f -> next_frames x f [] (i_frames x') v ->
  phase_action f <> Some A_property_lifecycle_set -> paused x'.
Proof.
  intros G Pz Fl Fr Ok Cx Fx NL. unfold paused in *. rewrite Fr in Pz. pose proof Ok as (St & _ & _ & _ & Ph).
  unfold flat in Fl. rewrite Fr in Fl. unfold next_cur in Cx. unfold next_frames in Fx. unfold phase_action in NL.
  destruct (f_phase f) as [[|r rs]|r|r|r|fo] eqn:P.
  - rewrite Fx, Cx. tauto.
  - destruct Fx as (p & -> & [->|[-> _]]); cbn; rewrite Cx; exact Pz.
  - exfalso. destruct Pz as [Eo _]. destruct Ph as [Ir _]. pose proof (rule_fact _ _ _ _ table_hold St Ir) as K.
    unfold chk_hold in K. rewrite Eo in K. destruct (r_action r) as [[]|]; try discriminate K. apply NL. reflexivity.
  - rewrite Fx. cbn. exact Pz.
  - destruct Pz as [Eo Et]. rewrite (proj2 (Z.eqb_eq _ _) Fl) in Cx, Fx.
    destruct Fx as [[_ ->]|[_ (st & -> & T)]]; [congruence|]. cbn. split; [congruence|].
    rewrite Et in T. pose proof (state_fact _ _ _ table_hold_state T) as K. unfold chk_hold_state in K.
    rewrite (state_id _ _ T) in K. rewrite andb_true_iff in K. destruct K as [_ K].
    rewrite Z.eqb_refl in K. cbn in K. unfold noop in K. destruct (s_enter st) as [[]|]; try discriminate K. reflexivity.
  - rewrite Fx, Cx. tauto.
Qed.

Lemma enable_passed tr rn i d f r : good tr -> frame_ok tr rn i d f -> f_phase f = Act r ->
  r_cond r = Some C_is_msgproperty_lifecycle_enable -> enables (f_event f).
Proof.
  intros G (_ & _ & _ & _ & Ph) P C. rewrite P in Ph. destruct Ph as [_ Ps]. unfold passed in Ps. rewrite C in Ps.
  destruct Ps as (v & Hv). destruct (tested_holds _ _ _ _ _ _ G Hv) as (ty & d' & Hh). cbn [holds] in Hh.
  rewrite !andb_true_iff in Hh. unfold enables. tauto.
Qed.

Lemma paused_start tr rn i x f v x' : good tr -> flat x -> i_frames x = [f] -> frame_ok tr rn i (i_key x) f ->
  i_cur x' = next_cur x f -> next_frames x f [] (i_frames x') v ->
  phase_action f = Some A_property_lifecycle_set -> disables (f_event f) -> paused x'.
Proof.
  intros G Fl Fr Ok Cx Fx Pa Di. destruct (phase_act_dec f) as [[r P]|P];
    [|pose proof (side_plain _ _ _ _ _ _ Ok Pa P) as K; discriminate].
  assert (A : r_action r = Some A_property_lifecycle_set) by (unfold phase_action in Pa; rewrite P in Pa; exact Pa).
  destruct (act_rule _ _ _ _ _ _ _ Ok P A) as (_ & K & _). unfold chk_hold in K. rewrite A in K.
  assert (Q : f_old f = IN_USE_MSGPROPERTY /\ r_target r = ON_HOLD_MSGPROPERTY).
  { rewrite orb_true_iff, !andb_true_iff in K. destruct K as [K|[_ K]]; [lia|exfalso].
    destruct (r_cond r) as [[]|] eqn:C; try discriminate K.
    pose proof (enable_passed _ _ _ _ _ _ G Ok P C) as En. unfold enables in En. destruct Di as [_ Dn]. congruence. }
  unfold paused, next_frames in *. rewrite P in Fx. destruct Fx as (p & -> & [[-> _]|[-> _]]); cbn; exact Q.
Qed.

Lemma paused_runs tr rn i x f a : good tr -> paused x -> i_frames x = [f] -> frame_ok tr rn i (i_key x) f ->
  phase_action f = Some a -> a = A_keystate_noop \/ (a = A_property_lifecycle_set /\ enables (f_event f)).
Proof.
  intros G Pz Fr Ok Pa. unfold paused in Pz. rewrite Fr in Pz. pose proof Ok as (St & _ & _ & _ & Ph).
  unfold phase_action in Pa. destruct (f_phase f) as [rs|r|r|r|fo] eqn:P; try discriminate.
  - right. destruct Pz as [Eo _]. destruct (act_rule _ _ _ _ _ _ _ Ok P Pa) as (_ & K & _). unfold chk_hold in K.
    rewrite Pa, Eo in K. destruct a; try discriminate K. cbn in K.
    split; [reflexivity|]. destruct (r_cond r) as [[]|] eqn:C; try discriminate K.
    eapply enable_passed; eauto.
  - left. destruct Pz as [Eo _]. pose proof (state_fact _ _ _ table_hold_state St) as K. unfold chk_hold_state in K.
    rewrite (state_id _ _ St), Eo, Pa in K. cbn in K. destruct a; try discriminate K. reflexivity.
  - left. destruct Pz as [_ E]. congruence.
Qed.

Lemma off_runs tr rn i x f a : off x -> i_frames x = [f] -> frame_ok tr rn i (i_key x) f ->
  phase_action f = Some a -> receives a = false.
Proof.
  intros (_ & _ & Of) Fr Ok Pa. rewrite Fr in Of. destruct Of as [_ Of].
  destruct (phase_act_dec f) as [[r P]|P].
  - rewrite P in Of. unfold phase_action in Pa. rewrite P in Pa. rewrite Pa in Of. exact Of.
  - pose proof (side_plain _ _ _ _ _ _ Ok Pa P) as K. destruct a; try reflexivity; discriminate K.
Qed.

Lemma step_finv m s s' : FInv s -> unnested m s -> step m s = Some s' -> FInv s'.
Proof.
  intros (V & Le & Tr & K) U H. pose proof (step_inv _ _ _ V H) as V'. split; [exact V'|].
  destruct m as [d ty|d e|i k|i v]; cbn [step] in H.
  - injection H as <-. cbn [trace insts]. split; [intros i D; rewrite app_length; specialize (Le i D); lia|].
    split; [exact Tr|]. intros j y N. destruct (Nat.lt_ge_cases j (length (insts s))) as [L|L].
    + rewrite nth_error_app1 in N by auto. apply K; auto.
    + rewrite nth_error_app2 in N by auto. destruct (j - length (insts s))%nat as [|z]; cbn in N.
      * injection N as <-. split; [exact I|]. split; intros D; exfalso; [specialize (Le j (or_introl D))|specialize (Le j (or_intror D))]; lia.
      * destruct z; discriminate.
  - destruct (mailable e); [|discriminate]. injection H as <-. unfold send; cbn [trace insts]. auto.
  - destruct (nth_error (insts s) i) as [x|] eqn:N; [|discriminate].
    destruct (nth_error (mail s) k) as [[d e]|] eqn:Mk; [|discriminate].
    destruct (d =? i_key x) eqn:D; [|discriminate].
    destruct (state_at key_table (i_cur x)) as [st| |] eqn:T; try discriminate. injection H as <-.
    cbn [trace insts]. cbn [unnested] in U. rewrite N in U. rewrite U.
    set (o := Started i (runs s) e).
    assert (Dd : forall j, disconnected (o :: trace s) j -> disconnected (trace s) j).
    { intros j Dj. apply (disconnected_app [_]) in Dj as [Dj|(n & d' & e' & [Q|[]])]; [exact Dj|discriminate]. }
    assert (Dh : forall j, held (o :: trace s) j -> held (trace s) j).
    { intros j Dj. apply (held_app [_]) in Dj as [[Dj _]|(n & d' & e' & [Q|[]] & _)]; [exact Dj|discriminate]. }
    split; [intros j Dj; rewrite upd_length; apply Le; destruct Dj; auto|]. split.
    + intros l1 l2 j n d' a e' Q. destruct l1 as [|z l1]; cbn in Q; [discriminate|]. injection Q as _ Q. eapply Tr; eauto.
    + intros j y Nj. destruct (Nat.eq_dec i j) as [<-|Ne].
      * rewrite (nth_upd_same _ _ _ _ N) in Nj. injection Nj as <-. destruct (K i x N) as (_ & Ko & Kh).
        split; [reflexivity|]. split.
        -- intros Dj. destruct (Ko (Dd _ Dj)) as (A & B & _). split; [exact A|]. split; [exact B|]. cbn. auto.
        -- intros Dj. specialize (Kh (Dh _ Dj)). unfold paused in *. rewrite U in Kh. cbn. auto.
      * rewrite nth_upd_other in Nj by auto. destruct (K j y Nj) as (A & B & C). auto.
  - destruct (nth_error (insts s) i) as [x|] eqn:N; [|discriminate].
    destruct (i_frames x) as [|f rest] eqn:F; [discriminate|].
    destruct (K i x N) as (Fl & Ko & Kh). assert (rest = []) as ->.
    { unfold flat in Fl. rewrite F in Fl. destruct rest; [reflexivity|destruct Fl]. }
    destruct (go_shape _ _ _ _ _ _ _ H) as (o & m & x' & -> & Kx & Cx & Tx & Fx & Ob & Ra & Lr).
    cbn [trace insts]. pose proof (proj1 V) as G.
    destruct (proj2 (proj2 V) i x N) as [_ Vf]. rewrite F in Vf. apply Forall_cons_iff in Vf as [Ok _].
    assert (In_o : forall j n d a e, In (Ran j n d a e) o -> j = i /\ phase_action f = Some a /\ e = f_event f).
    { intros j n d a e Q. destruct (Ob _ Q) as (-> & _ & _ & -> & Q'). auto. }
    split; [|split].
    + intros j Dj. rewrite upd_length. destruct Dj as [Dj|Dj].
      * apply disconnected_app in Dj as [Dj|(n & d & e & Q)]; [auto|].
        destruct (In_o _ _ _ _ _ Q) as [-> _]. apply nth_error_Some. rewrite N. discriminate.
      * apply held_app in Dj as [[Dj _]|(n & d & e & Q & _)]; [auto|].
        destruct (In_o _ _ _ _ _ Q) as [-> _]. apply nth_error_Some. rewrite N. discriminate.
    + assert (New : forall o1 o2, o = o1 ++ o2 -> forall l1 l2 j n d a e, o2 ++ trace s = l1 ++ Ran j n d a e :: l2 ->
          (disconnected l2 j -> receives a = false) /\
          (held l2 j -> a = A_keystate_noop \/ (a = A_property_lifecycle_set /\ enables e))).
      { intros o1 o2. revert o1. induction o2 as [|z o2 IH]; intros o1 Eo l1 l2 j n d a e Q; [eapply Tr; eauto|].
        destruct l1 as [|y l1]; cbn in Q; injection Q as -> Q.
        - subst l2. assert (o2 = []) as -> by (eapply Lr; eauto). cbn [app].
          assert (Hin : In (Ran j n d a e) o) by (rewrite Eo; apply in_or_app; right; left; reflexivity).
          destruct (In_o _ _ _ _ _ Hin) as (-> & Pa & ->). split.
          + intros Dj. eapply off_runs; eauto.
          + intros Dj. eapply paused_runs; eauto.
        - eapply (IH (o1 ++ [y])); eauto. rewrite <- app_assoc. exact Eo. }
      intros l1 l2 j n d a e Q. eapply (New [] o); eauto.
    + intros j y Nj. destruct (Nat.eq_dec i j) as [<-|Ne].
      * rewrite (nth_upd_same _ _ _ _ N) in Nj. injection Nj as <-. split; [eapply next_flat; eauto|]. split.
        -- intros Dj. apply disconnected_app in Dj as [Dj|(n & d & e & Q)].
           ++ eapply off_next; eauto.
           ++ destruct (In_o _ _ _ _ _ Q) as (_ & Pa & _). eapply off_start; eauto.
        -- intros Dj. apply held_app in Dj as [[Dj Dn]|(n & d & e & Q & Di)].
           ++ eapply paused_next; eauto. intros Pa. apply (Dn (f_run f) (i_key x) (f_event f)). auto.
           ++ destruct (In_o _ _ _ _ _ Q) as (_ & Pa & ->). eapply paused_start; eauto.
      * rewrite nth_upd_other in Nj by auto. destruct (K j y Nj) as (A & B & C). split; [exact A|]. split.
        -- intros Dj. apply B. apply disconnected_app in Dj as [Dj|(n & d & e & Q)]; [exact Dj|].
           destruct (In_o _ _ _ _ _ Q) as [-> _]. congruence.
        -- intros Dj. apply C. apply held_app in Dj as [[Dj _]|(n & d & e & Q & _)]; [exact Dj|].
           destruct (In_o _ _ _ _ _ Q) as [-> _]. congruence.
Qed.

Lemma finv_empty : FInv empty.
Proof.
  split; [apply inv_empty|]. split; [|split].
  - intros i [(n & d & e & [])|(l1 & n & d & e & l2 & Q & _)]. destruct l1; discriminate.
  - intros [|z l1]; discriminate.
  - intros [|i] x; discriminate.
Qed.

Lemma steps_finv ms : forall s s', FInv s -> all_unnested ms s -> steps ms s = Some s' -> FInv s'.
Proof.
  induction ms as [|m ms IH]; cbn; intros s s' V U H; [injection H as <-; exact V|].
  destruct U as [U1 U2]. destruct (step m s) as [s1|] eqn:E; [|discriminate].
  eapply IH; [|exact U2|exact H]. eapply step_finv; eauto.
Qed.
