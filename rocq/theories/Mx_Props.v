(** C55: settings of a data channel; C61: disabling a data channel. *)
From Verif Require Import Base Mx_Model Mx_Spec Mx_Proofs.

(** After any legal use of the channel, legal settings are accepted, and reading gives them back, with zeros replaced by what was
    valid before.  Missing: audience and reply id, settings for a role that only sends on a channel that never received,
    fractions of a second: refuted below. *)
Theorem C55_read_back_partial : forall h p,
  Forall legal_call h -> legal p ->
  exists s s', run h init = Ok s /\ np_set_mx_properties p s = Ok (true, s') /\
    (receiving s \/ consumes p ->
     (receiving s -> merged p (np_get_mx_properties s) (np_get_mx_properties s')) /\
     (~ receiving s -> merged p (defaults (p_role p)) (np_get_mx_properties s'))).
Proof.
  intros h p F Lg. destruct (run_inv h init init_inv F) as (s & E & I).
  destruct (set_spec p s I Lg) as (o & s' & E' & I' & L' & W1 & W2 & R1 & R2 & R3 & _).
  exists s, s'. split; auto. split; auto. intros D. unfold receiving in *.
  pose proof (R1 D) as Rx'.
  assert (Get : np_get_mx_properties s' = np_msgproperty4user (obj s' o)).
  { unfold np_get_mx_properties, conf_get. change (flag_cmp DEFAULT_MODE INBOUND) with true. cbv iota. rewrite Rx'. reflexivity. }
  split; intros R.
  - destruct (rx s) as [[q hh]|] eqn:Rs; [|congruence]. pose proof (R3 _ _ eq_refl); subst q.
    rewrite Get, (W1 _ eq_refl).
    replace (np_get_mx_properties s) with (np_msgproperty4user (obj s o)).
    2:{ unfold np_get_mx_properties, conf_get. change (flag_cmp DEFAULT_MODE INBOUND) with true. cbv iota. rewrite Rs. reflexivity. }
    apply read_written; auto. apply obj_good; auto. destruct (i_rx s I _ _ Rs); auto.
  - assert (Rs : rx s = None) by (destruct (rx s); auto; exfalso; apply R; discriminate).
    rewrite Get, (W2 Rs). pose proof (read_written p (new_conf 3) Lg (good_new 3 ltac:(cbn; auto))) as M.
    unfold merged in *. exact M.
Qed.

(** The settings take effect, audience included: on the receiving side for a consumer, on the sending side (unless it is
    disabled) for a provider. *)
Theorem C55_effective_partial : forall h p,
  Forall legal_call h -> legal p -> no_zero p ->
  exists s s', run h init = Ok s /\ np_set_mx_properties p s = Ok (true, s') /\
    (consumes p -> exists c, received_with s' c /\ carries c p) /\
    (provides p -> (forall o, tx s <> Some (o, true)) -> exists c, sent_with s' c /\ carries c p).
Proof.
  intros h p F Lg NZ. destruct (run_inv h init init_inv F) as (s & E & I).
  destruct (set_spec p s I Lg) as (o & s' & E' & I' & L' & W1 & W2 & R1 & R2 & R3 & T1 & T2 & T3 & _).
  exists s, s'. split; auto. split; auto.
  assert (W : exists c, obj s' o = written p c).
  { destruct (rx s) as [[q hh]|] eqn:Rs; eauto. pose proof (R3 _ _ eq_refl); subst q. eauto. }
  destruct W as [c0 W]. split.
  - intros C. exists (obj s' o). split.
    + exists o, false. split; auto. apply obj_nth; auto.
    + rewrite W. apply written_carries; auto.
  - intros P N. specialize (T1 P).
    destruct (tx s) as [[q hh]|] eqn:Ts.
    + destruct hh. { exfalso. apply (N q). reflexivity. }
      exists (obj s' o). split; [|rewrite W; apply written_carries; auto].
      exists q, false. split; auto. rewrite <- (T3 P q T1). apply obj_nth. eapply i_tx; eauto.
    + exists (obj s' o). split; [|rewrite W; apply written_carries; auto].
      exists o, false. split; auto. apply obj_nth; auto.
Qed.

(** A channel that is only used, never configured, has the documented defaults on both sides, and does not look for copies of
    messages (C58); once it is configured it does. *)
Theorem C55_defaults_partial : forall h s c,
  (forall p, ~ In (Set_ p) h) -> run h init = Ok s -> sent_with s c \/ received_with s c ->
  (forall role, carries c (defaults role)) /\ c_unique c = false.
Proof.
  intros h s c N R W.
  assert (F : Forall (fun c => (forall role, carries c (defaults role)) /\ c_unique c = false) (objs s)).
  { eapply (common_run _ _ h init s N); [constructor|exact R]. Unshelve.
    intros m. split; [|reflexivity]. intros role. unfold carries, defaults, new_conf. cbn -[Z.div]. repeat split; reflexivity. }
  rewrite Forall_forall in F. destruct W as [(o & b & _ & E)|(o & b & _ & E)]; apply F; eapply nth_error_In; eauto.
Qed.
Theorem C55_unique_partial : forall h p,
  Forall legal_call h -> legal p ->
  exists s s', run h init = Ok s /\ np_set_mx_properties p s = Ok (true, s') /\
    (consumes p -> exists c, received_with s' c /\ c_unique c = true).
Proof.
  intros h p F Lg. destruct (run_inv h init init_inv F) as (s & E & I).
  destruct (set_spec p s I Lg) as (o & s' & E' & I' & L' & W1 & W2 & R1 & R2 & R3 & T1 & T2 & T3 & _).
  exists s, s'. split; auto. split; auto.
  assert (W : exists c, obj s' o = written p c).
  { destruct (rx s) as [[q hh]|] eqn:Rs; eauto. pose proof (R3 _ _ eq_refl); subst q. eauto. }
  destruct W as [c0 W]. intros C. exists (obj s' o). split.
  - exists o, false. split; auto. apply obj_nth; auto.
  - rewrite W. reflexivity.
Qed.
Example C55_defaults_ex : exists s c c', run [Listen; Send; Send] init = Ok s /\ sent_with s c /\ received_with s c' /\ c_cache c = 16 /\ c_thr c' = 2.
Proof.
  exists (match run [Listen; Send; Send] init with Ok s => s | _ => init end), (new_conf 2), (new_conf 1).
  split; [vm_compute; reflexivity|]. split; [exists 1%nat, false; split; vm_compute; reflexivity|].
  split; [exists 0%nat, false; split; vm_compute; reflexivity|]. split; reflexivity.
Qed.

(** Settings for both roles stay in effect however often the channel is then used (the sending side not being disabled). *)
Theorem C55_keeps_partial : forall h p u,
  Forall legal_call h -> legal p -> p_role p = 2 -> Forall use_call u ->
  exists s s' s2, run h init = Ok s /\ np_set_mx_properties p s = Ok (true, s') /\ run u s' = Ok s2 /\
    ((forall o, tx s <> Some (o, true)) ->
     np_get_mx_properties s2 = np_get_mx_properties s' /\
     (forall c, received_with s' c -> received_with s2 c) /\ (forall c, sent_with s' c -> sent_with s2 c)).
Proof.
  intros h p u F Lg Ro U. destruct (run_inv h init init_inv F) as (s & E & I).
  destruct (set_spec p s I Lg) as (o & s' & E' & I' & L' & W1 & W2 & R1 & R2 & R3 & T1 & T2 & T3 & _).
  assert (C : consumes p) by (right; auto). assert (P : provides p) by (right; auto).
  specialize (R1 (or_intror C)). specialize (T1 P).
  destruct (run_inv u s' I') as (s2 & E2 & I2).
  { eapply Forall_impl; [|exact U]. intros x [-> | ->]; exact Logic.I. }
  exists s, s', s2. split; auto. split; auto. split; auto. intros N.
  assert (M3 : c_mode (obj s' o) = 3).
  { assert (W : exists c, obj s' o = written p c).
    { destruct (rx s) as [[q hh]|] eqn:Rs; eauto. pose proof (R3 _ _ eq_refl); subst q. eauto. }
    destruct W as [c0 ->]. cbn [written c_mode]. rewrite Ro. reflexivity. }
  assert (T' : exists q, tx s' = Some (q, false)).
  { rewrite T1. destruct (tx s) as [[q []]|] eqn:Ts; eauto. exfalso. eapply N; eauto. }
  destruct T' as [q Tq].
  assert (B : both s' (obj s' o)).
  { split; auto. split; [exists o; auto|]. exists q, false. split; auto. }
  destruct (uses_both u s' _ I' B U) as (s2' & E2' & _ & B2). assert (s2' = s2) by congruence. subst s2'.
  destruct B2 as (_ & (a & Ra & Oa) & (b & hb & Tb & Ob)).
  assert (La : (a < length (objs s2))%nat) by (eapply i_rx; eauto).
  assert (Lb : (b < length (objs s2))%nat) by (eapply i_tx; eauto).
  split; [|split].
  - unfold np_get_mx_properties, conf_get. change (flag_cmp DEFAULT_MODE INBOUND) with true. cbv iota.
    rewrite R1, Ra. cbn [option_map fst]. rewrite Oa. reflexivity.
  - intros c (x & hx & Rx & Nx). exists a, false. split; auto. rewrite (obj_nth s2 a La), Oa.
    assert (x = o) by congruence. subst x. rewrite (obj_nth s' o L') in Nx. auto.
  - intros c (x & hx & Tx & Nx). exists b, hb. split; auto. rewrite (obj_nth s2 b Lb), Ob.
    assert (x = q) by congruence. subst x. rewrite <- (T3 P q Tq). rewrite (obj_nth s' q) in Nx; auto. eapply i_tx; eauto.
Qed.

(** witnesses *)
Definition after (h : list call) : st := match run h init with Ok s => s | _ => init end.
Definition id1 : list Z := 7 :: repeat 1 31.
Definition id2 : list Z := 8 :: repeat 2 31.
Definition p0 (role : Z) : props := mkProps role 1 zero_id 0 zero_id 2 40 5 7 60000000 10000000 2500000.
Definition with_reply (r : list Z) (p : props) : props :=
  mkProps (p_role p) (p_ack p) r (p_aud_type p) (p_aud_id p) (p_policy p) (p_cache p) (p_par p) (p_retry p) (p_ittl p) (p_iupd p) (p_mttl p).
Definition with_aud (t : Z) (i : list Z) (p : props) : props :=
  mkProps (p_role p) (p_ack p) (p_reply p) t i (p_policy p) (p_cache p) (p_par p) (p_retry p) (p_ittl p) (p_iupd p) (p_mttl p).
Definition with_cache (n : Z) (p : props) : props :=
  mkProps (p_role p) (p_ack p) (p_reply p) (p_aud_type p) (p_aud_id p) (p_policy p) n (p_par p) (p_retry p) (p_ittl p) (p_iupd p) (p_mttl p).

Lemma legal_p0 r : (r = 0 \/ r = 1 \/ r = 2) -> legal (p0 r).
Proof. intros H. constructor; cbn [p0 p_role p_ack p_policy p_cache p_par p_retry p_ittl p_iupd p_mttl p_reply p_aud_type p_aud_id];
  auto; try lia; try (split; [lia|reflexivity]); try reflexivity; try discriminate. Qed.

Lemma legal_cache n p : legal p -> 0 <= n < 65536 -> legal (with_cache n p).
Proof. intros L N. destruct L. constructor; auto. Qed.

Example C55_hypotheses_ex :
  Forall legal_call [Listen; Set_ (p0 2); Send; Set_ (with_cache 0 (p0 1))] /\ legal (p0 2) /\ no_zero (p0 2) /\
  (exists s, run [Listen; Set_ (p0 2); Send; Set_ (with_cache 0 (p0 1))] init = Ok s /\ receiving s /\
     p_cache (np_get_mx_properties s) = 40 /\ p_role (np_get_mx_properties s) = 1 /\ (forall o, tx s <> Some (o, true))).
Proof.
  split; [|split; [|split]].
  - constructor; [exact I|]. constructor; [apply legal_p0; auto|]. constructor; [exact I|]. constructor; [|constructor].
    apply legal_cache; [apply legal_p0; auto|lia].
  - apply legal_p0; auto.
  - repeat split; cbn; lia.
  - exists (after [Listen; Set_ (p0 2); Send; Set_ (with_cache 0 (p0 1))]).
    split; [vm_compute; reflexivity|]. split; [vm_compute; discriminate|]. split; [vm_compute; reflexivity|].
    split; [vm_compute; reflexivity|]. intros o. vm_compute. discriminate.
Qed.

(** Reading, and setting what was read, opens a channel that was protected: the audience is not part of what is read. *)
Theorem C55_audience_refuted :
  exists p s s' c, legal p /\ p_aud_type p = 2 /\ p_aud_id p = id1 /\
    run [Set_ p] init = Ok s /\ p_aud_type (np_get_mx_properties s) = 0 /\
    run [Set_ (np_get_mx_properties s)] s = Ok s' /\ received_with s' c /\ c_aud_type c = 0 /\ c_aud_id c = zero_id.
Proof.
  pose (p := with_aud 2 id1 (p0 2)). pose (s := after [Set_ p]). pose (s' := after [Set_ p; Set_ (np_get_mx_properties s)]).
  exists p, s, s', (obj s' 0).
  split. { constructor; cbn; auto; try lia; try (split; [lia|reflexivity]); try reflexivity. intros _ E. discriminate. }
  split; [reflexivity|]. split; [reflexivity|]. split; [vm_compute; reflexivity|]. split; [vm_compute; reflexivity|].
  split; [vm_compute; reflexivity|]. split. { exists 0%nat, false. split; vm_compute; reflexivity. } split; vm_compute; reflexivity.
Qed.

(** A provider cannot read its settings at all, and settings made before are lost when a later call leaves them zero. *)
Theorem C55_provider_refuted :
  exists p p' s s' c, legal p /\ legal p' /\ p_role p = 0 /\ p_role p' = 0 /\ p_cache p = 40 /\ p_cache p' = 0 /\
    run [Set_ p] init = Ok s /\ np_get_mx_properties s = mkProps 0 0 zero_id 0 zero_id 0 0 0 0 0 0 0 /\
    run [Set_ p'] s = Ok s' /\ sent_with s' c /\ c_cache c = 16.
Proof.
  pose (p := p0 0). pose (p' := with_cache 0 (p0 0)). pose (s := after [Set_ p]). pose (s' := after [Set_ p; Set_ p']).
  exists p, p', s, s', (obj s' 0).
  split; [apply legal_p0; auto|].
  split. { apply legal_cache; [apply legal_p0; auto|lia]. }
  split; [reflexivity|]. split; [reflexivity|]. split; [reflexivity|]. split; [reflexivity|]. split; [vm_compute; reflexivity|].
  split; [vm_compute; reflexivity|]. split; [vm_compute; reflexivity|].
  split. { exists 0%nat, false. split; vm_compute; reflexivity. } vm_compute; reflexivity.
Qed.

(** The reply id is not read back, and setting the same settings a second time takes it away. *)
Theorem C55_reply_refuted :
  exists p s s' c c', p_reply p = id1 /\
    run [Set_ p] init = Ok s /\ p_reply (np_get_mx_properties s) = zero_id /\ received_with s c /\ c_rep c <> None /\
    run [Set_ p] s = Ok s' /\ received_with s' c' /\ c_rep c' = None.
Proof.
  pose (p := with_reply id1 (p0 2)). pose (s := after [Set_ p]). pose (s' := after [Set_ p; Set_ p]).
  exists p, s, s', (obj s 0), (obj s' 0).
  split; [reflexivity|]. split; [vm_compute; reflexivity|]. split; [vm_compute; reflexivity|].
  split. { exists 0%nat, false. split; vm_compute; reflexivity. } split; [vm_compute; discriminate|]. split; [vm_compute; reflexivity|].
  split. { exists 0%nat, false. split; vm_compute; reflexivity. } vm_compute; reflexivity.
Qed.

(** Changing the reply id of one side only leaves a freed text in the other; sending copies it back and the next change of
    settings reads it. *)
Theorem C55_dangling_refuted :
  run [Listen; Send; Set_ (with_reply id1 (p0 2)); Set_ (with_reply id2 (p0 1)); Send; Set_ (with_reply id1 (p0 1))] init = UB.
Proof. vm_compute; reflexivity. Qed.

(** Sending a message takes back settings made for the receiving side. *)
Theorem C55_revert_refuted :
  exists s s', run [Listen; Send; Set_ (p0 2); Set_ (with_cache 99 (p0 1))] init = Ok s /\ p_cache (np_get_mx_properties s) = 99 /\
    run [Send] s = Ok s' /\ p_cache (np_get_mx_properties s') = 40 /\ p_role (np_get_mx_properties s') = 2.
Proof.
  exists (after [Listen; Send; Set_ (p0 2); Set_ (with_cache 99 (p0 1))]), (after [Listen; Send; Set_ (p0 2); Set_ (with_cache 99 (p0 1)); Send]).
  split; [vm_compute; reflexivity|]. split; [vm_compute; reflexivity|]. split; [vm_compute; reflexivity|]. split; vm_compute; reflexivity.
Qed.

(** Fractions of a second of the lifetime of an intent are dropped: half a second becomes none. *)
Theorem C55_fraction_refuted :
  exists p s, p_ittl p = 500000 /\ run [Set_ p] init = Ok s /\ p_ittl (np_get_mx_properties s) = 0.
Proof.
  pose (p := mkProps 2 0 zero_id 0 zero_id 0 1 1 1 500000 1000000 1000000). exists p, (after [Set_ p]).
  split; [reflexivity|]. split; vm_compute; reflexivity.
Qed.

(** C61.  A disabled channel sends nothing until it is enabled again, whatever is done in between; enabling it makes it send. *)
Theorem C61_disabled_sends_nothing_partial : forall h h2 s s2 ok out s3 o b,
  run h init = Ok s -> tx s = Some (o, b) -> ~ In Enable h2 ->
  run h2 (np_mx_properties_disable s) = Ok s2 -> np_send s2 = (ok, out, s3) -> out = false.
Proof.
  intros h h2 s s2 ok out s3 o b E T N E2 S.
  assert (T2 : tx s2 = Some (o, true)).
  { eapply run_held; eauto. unfold np_mx_properties_disable. cbn. rewrite T. reflexivity. }
  assert (T3 : tx (snd (np_send s2)) = Some (o, true)).
  { apply (step_held Send s2 (snd (np_send s2)) o T2); [discriminate|reflexivity]. }
  unfold np_send in *. destruct (get_or_create OUTBOUND s2) as [s1 x]. destruct (c_aud_type (obj s1 x) =? 1).
  - injection S as <- <- <-. reflexivity.
  - injection S as <- <- <-. cbn [snd] in T3. rewrite T3. reflexivity.
Qed.
Theorem C61_enabled_sends_partial : forall h s ok out s3 o b,
  Forall legal_call h -> run h init = Ok s -> tx s = Some (o, b) ->
  np_send (np_mx_properties_enable s) = (ok, out, s3) -> out = ok.
Proof.
  intros h s ok out s3 o b F E T S. destruct (run_inv h init init_inv F) as (s' & E' & I).
  assert (s' = s) by congruence; subst s'.
  pose proof (hold_inv false s I) as I2. unfold np_mx_properties_enable in S. rewrite T in *. cbn [hold option_map] in *.
  set (s1 := mkSt _ _ _ _ _) in *. unfold np_send, get_or_create, conf_get in S.
  change (flag_cmp OUTBOUND INBOUND) with false in S. change (flag_cmp OUTBOUND OUTBOUND) with true in S. cbv iota in S.
  change (tx s1) with (Some (o, false)) in S. cbn [option_map fst] in S.
  destruct (c_aud_type (obj s1 o) =? 1).
  - injection S as <- <- <-. reflexivity.
  - pose proof (register_spec o s1 I2 (i_tx s1 I2 o false eq_refl)) as R. cbv zeta in R.
    destruct R as (_ & _ & _ & _ & _ & _ & T3 & _). change (tx s1) with (Some (o, false)) in T3.
    assert (T4 : tx (register o s1) = Some (o, false)) by (rewrite T3; destruct (flag_cmp _ 2); reflexivity).
    rewrite T4 in S. injection S as <- <- <-. reflexivity.
Qed.
Example C61_ex :
  exists s, run [Listen; Set_ (p0 2); Send] init = Ok s /\ (exists o, tx s = Some (o, false)) /\
    fst (np_send s) = (true, true) /\ fst (np_send (np_mx_properties_disable s)) = (true, false) /\
    fst (np_send (np_mx_properties_enable (np_mx_properties_disable s))) = (true, true).
Proof.
  exists (after [Listen; Set_ (p0 2); Send]). split; [vm_compute; reflexivity|]. split; [exists 0%nat; vm_compute; reflexivity|].
  split; [vm_compute; reflexivity|]. split; vm_compute; reflexivity.
Qed.

(** Disabling does not stop the receiving side: in every state messages reach the callbacks exactly as before. *)
Theorem C61_receive_refuted :
  (forall s, delivers (np_mx_properties_disable s) = delivers s) /\
  (exists s, run [Listen; Set_ (p0 1)] init = Ok s /\ delivers (np_mx_properties_disable s) = true).
Proof.
  split; [reflexivity|]. exists (after [Listen; Set_ (p0 1)]). split; vm_compute; reflexivity.
Qed.

(** Settings made while the channel is disabled are lost for the sending side. *)
Theorem C61_settings_lost_refuted :
  exists s s' c, run [Listen; Send; Set_ (p0 2); Disable; Set_ (with_cache 99 (p0 2)); Enable] init = Ok s /\
    run [Send] s = Ok s' /\ sent_with s' c /\ c_cache c = 40.
Proof.
  pose (h := [Listen; Send; Set_ (p0 2); Disable; Set_ (with_cache 99 (p0 2)); Enable]).
  exists (after h), (after (h ++ [Send])), (obj (after (h ++ [Send])) 1).
  split; [vm_compute; reflexivity|]. split; [vm_compute; reflexivity|].
  split; [exists 1%nat, false; split; vm_compute; reflexivity|]. vm_compute; reflexivity.
Qed.

Print Assumptions C55_read_back_partial.
Print Assumptions C55_effective_partial.
Print Assumptions C55_defaults_partial.
Print Assumptions C55_unique_partial.
Print Assumptions C55_keeps_partial.
Print Assumptions C55_audience_refuted.
Print Assumptions C55_provider_refuted.
Print Assumptions C55_reply_refuted.
Print Assumptions C55_dangling_refuted.
Print Assumptions C55_revert_refuted.
Print Assumptions C55_fraction_refuted.
Print Assumptions C61_disabled_sends_nothing_partial.
Print Assumptions C61_enabled_sends_partial.
Print Assumptions C61_receive_refuted.
Print Assumptions C61_settings_lost_refuted.
