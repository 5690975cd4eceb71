From Verif Require Import Base Mx_Model Mx_Spec.

(** well formed states *)
Definition good (c : conf) : Prop :=
  c_rep c = None /\ In (c_policy c) [17; 33; 18; 34] /\ 0 <= c_thr c < 256 /\ In (c_mode c) [1; 2; 3].
Record Inv (s : st) : Prop := {
  i_rx : forall o h, rx s = Some (o, h) -> (o < length (objs s))%nat /\ h = false;
  i_tx : forall o h, tx s = Some (o, h) -> (o < length (objs s))%nat;
  i_good : Forall good (objs s) }.

Lemma obj_nth s o : (o < length (objs s))%nat -> nth_error (objs s) o = Some (obj s o).
Proof. intros. unfold obj. apply nth_error_nth'. auto. Qed.
Lemma obj_good s o : Inv s -> (o < length (objs s))%nat -> good (obj s o).
Proof. intros I L. eapply Forall_forall; [apply (i_good s I)|]. eapply nth_error_In. apply obj_nth; auto. Qed.

Lemma upd_same {A} (l : list A) i d : upd l i (nth i l d) = l.
Proof. revert i; induction l; destruct i; cbn; auto. f_equal; auto. Qed.
Lemma set_obj_same s o : set_obj s o (obj s o) = s.
Proof. destruct s. unfold set_obj, obj. cbn. rewrite upd_same. reflexivity. Qed.

Lemma obj_set_eq s o c : (o < length (objs s))%nat -> obj (set_obj s o c) o = c.
Proof. intros. unfold obj, set_obj. cbn. apply upd_nth_eq; auto. Qed.
Lemma obj_set_neq s o p c : o <> p -> obj (set_obj s o c) p = obj s p.
Proof. intros. unfold obj, set_obj. cbn. apply upd_nth_neq; auto. Qed.
Lemma obj_set_copy s p o q : (p < length (objs s))%nat -> obj (set_obj s p (obj s o)) q = if Nat.eqb p q then obj s o else obj s q.
Proof.
  intros. destruct (Nat.eqb_spec p q).
  - subst. apply obj_set_eq; auto.
  - apply obj_set_neq; auto.
Qed.

Lemma good_new m : In m [1; 2; 3] -> good (new_conf m).
Proof. intros H. repeat split; cbn; auto; lia. Qed.

Lemma get_or_create_inv m s s1 o : Inv s -> In m [1;2;3] -> get_or_create m s = (s1, o) ->
  Inv s1 /\ (o < length (objs s1))%nat /\ rx s1 = rx s /\ tx s1 = tx s /\ listeners s1 = listeners s /\ strs s1 = strs s /\
  (forall q, (q < length (objs s))%nat -> obj s1 q = obj s q) /\ (length (objs s) <= length (objs s1))%nat /\
  (conf_get m s = Some o \/ conf_get m s = None /\ o = length (objs s) /\ obj s1 o = new_conf m).
Proof.
  intros I M. unfold get_or_create. destruct (conf_get m s) as [x|] eqn:E.
  - intros [= <- <-]. split; auto. split.
    + unfold conf_get in E. destruct (flag_cmp m INBOUND).
      * destruct (rx s) as [[a b]|] eqn:R; try discriminate. cbn in E. injection E as <-. eapply i_rx; eauto.
      * destruct (flag_cmp m OUTBOUND); try discriminate.
        destruct (tx s) as [[a b]|] eqn:R; try discriminate. cbn in E. injection E as <-. eapply i_tx; eauto.
    + repeat split; auto.
  - intros [= <- <-]. cbn [objs strs rx tx listeners]. split; [|split; [rewrite app_length; cbn; lia|]].
    + constructor; cbn [objs rx tx].
      * intros o h R. destruct (i_rx s I _ _ R). split; auto. rewrite app_length; lia.
      * intros o h R. pose proof (i_tx s I _ _ R). rewrite app_length; lia.
      * apply Forall_app; split; [apply (i_good s I)|]. constructor; auto. apply good_new; auto.
    + repeat split; auto.
      * intros q Q. unfold obj. cbn. apply app_nth1; auto.
      * rewrite app_length; lia.
      * right. repeat split; auto. unfold obj. cbn. rewrite app_nth2 by lia. rewrite Nat.sub_diag. reflexivity.
Qed.

(** registering: the object itself stays; each side named by its mode then holds its content *)
Lemma register_spec o s : Inv s -> (o < length (objs s))%nat ->
  let s' := register o s in
  let c := obj s o in
  Inv s' /\ length (objs s') = length (objs s) /\ strs s' = strs s /\ listeners s' = listeners s /\ obj s' o = c /\
  (rx s' = if flag_cmp (c_mode c) 1 then match rx s with None => Some (o, false) | k => k end else rx s) /\
  (tx s' = if flag_cmp (c_mode c) 2 then match tx s with None => Some (o, false) | k => k end else tx s) /\
  (forall q, obj s' q = c \/ obj s' q = obj s q) /\
  (forall q h, flag_cmp (c_mode c) 1 = true -> rx s' = Some (q, h) -> obj s' q = c) /\
  (forall q, flag_cmp (c_mode c) 2 = true -> tx s' = Some (q, false) -> obj s' q = c).
Proof.
  intros I L. cbv zeta. unfold register, INBOUND, OUTBOUND. set (c := obj s o).
  set (s1 := if flag_cmp (c_mode c) 1 then _ else s).
  assert (H1 : Inv s1 /\ length (objs s1) = length (objs s) /\ strs s1 = strs s /\ listeners s1 = listeners s /\ obj s1 o = c /\
    rx s1 = (if flag_cmp (c_mode c) 1 then match rx s with None => Some (o, false) | k => k end else rx s) /\ tx s1 = tx s /\
    (forall q, obj s1 q = c \/ obj s1 q = obj s q) /\
    (forall q h, flag_cmp (c_mode c) 1 = true -> rx s1 = Some (q, h) -> obj s1 q = c)).
  { unfold s1. destruct (flag_cmp (c_mode c) 1) eqn:F.
    2:{ split; [auto|]. split; [auto|]. split; [auto|]. split; [auto|]. split; [auto|]. split; [auto|]. split; [auto|]. split; [auto|]. discriminate. }
    unfold property_event. destruct (rx s) as [[p h]|] eqn:R.
    - destruct (i_rx s I _ _ R) as [Lp ->].
      cbn [objs strs rx tx listeners set_obj]. rewrite upd_length.
      assert (G : forall q, nth q (upd (objs s) p (obj s o)) (new_conf 0) = if Nat.eqb p q then c else obj s q)
        by (intros; apply (obj_set_copy s p o q Lp)).
      split; [|repeat split; auto].
      + constructor; cbn [objs rx tx]; rewrite ?upd_length.
        * intros o' h' E. injection E as <- <-. auto.
        * intros o' h' E. eapply i_tx; eauto.
        * apply Forall_upd; [apply (i_good s I)|]. apply obj_good; auto.
      + unfold obj at 1. cbn [objs]. rewrite G. destruct (Nat.eqb p o); reflexivity.
      + intros q. unfold obj at 1 3. cbn [objs]. rewrite G. destruct (Nat.eqb p q); auto.
      + intros q h _ E. injection E as <- <-. unfold obj. cbn [objs]. rewrite G. rewrite Nat.eqb_refl. reflexivity.
    - cbn [objs strs rx tx listeners].
      split; [|repeat split; auto].
      + constructor; cbn [objs rx tx].
        * intros o' h' E. injection E as <- <-. auto.
        * intros; eapply i_tx; eauto.
        * apply (i_good s I).
      + intros q h _ E. injection E as <- <-. reflexivity. }
  clearbody s1. destruct H1 as (I1 & L1 & S1 & N1 & O1 & R1 & T1 & Q1 & P1).
  rewrite O1. destruct (flag_cmp (c_mode c) 2) eqn:F.
  2:{ split; auto. split; auto. split; auto. split; auto. split; auto. split; auto. split; auto. split; auto. split; auto.
      discriminate. }
  unfold property_event. rewrite T1. destruct (tx s) as [[p h]|] eqn:R.
  - pose proof (i_tx s I _ _ R) as Lp. destruct h.
    + cbn [objs strs rx tx listeners]. split; [|repeat split; auto].
      * constructor; cbn [objs rx tx]; [apply (i_rx s1 I1)| |apply (i_good s1 I1)].
        intros o' h' E. injection E as <- <-. lia.
      * discriminate.
    + cbn [objs strs rx tx listeners set_obj]. rewrite upd_length.
      assert (G : forall q, nth q (upd (objs s1) p (obj s1 o)) (new_conf 0) = if Nat.eqb p q then c else obj s1 q).
      { intros. rewrite <- O1. apply (obj_set_copy s1 p o q). lia. }
      split; [|repeat split; auto].
      * constructor; cbn [objs rx tx]; rewrite ?upd_length.
        -- apply (i_rx s1 I1).
        -- intros o' h' E. injection E as <- <-. lia.
        -- apply Forall_upd; [apply (i_good s1 I1)|]. apply obj_good; auto. lia.
      * unfold obj at 1. cbn [objs]. rewrite G. destruct (Nat.eqb p o); auto.
      * intros q. unfold obj at 1 3. cbn [objs]. rewrite G. destruct (Nat.eqb p q); auto.
      * intros q h Fq E. unfold obj at 1. cbn [objs]. rewrite G. destruct (Nat.eqb p q); auto. eapply P1; eauto.
      * intros q _ E. injection E as <-. unfold obj. cbn [objs]. rewrite G. rewrite Nat.eqb_refl. reflexivity.
  - cbn [objs strs rx tx listeners]. split; [|repeat split; auto].
    + constructor; cbn [objs rx tx]; [apply (i_rx s1 I1)| |apply (i_good s1 I1)].
      intros o' h' E. injection E as <- <-. lia.
    + intros q _ E. injection E as <-. auto.
Qed.

(** content of an object after legal settings were written into it *)
Definition written (p : props) (c : conf) : conf :=
  mkConf None (if p_role p =? 1 then 1 else if p_role p =? 0 then 2 else 3) 68
    (if p_ack p =? 1 then 2 else if p_ack p =? 2 then 4 else 1)
    (keep (p_mttl p) (c_mttl c)) (keep (p_retry p) (c_retry c))
    (if p_ittl p =? 0 then c_max c else p_ittl p / 1000000)
    (if p_iupd p =? 0 then 3 else p_iupd p / 1000000)
    (nth (Z.to_nat (p_policy p)) [17; 33; 18; 34] 0)
    (keep (p_cache p) (c_cache c)) (keep (p_par p) (c_thr c)) true (p_aud_type p) (p_aud_id p) (c_reply c).

Lemma if_keep a b : 0 <= a -> (if 0 <? a then a else b) = keep a b.
Proof. intros. unfold keep. destruct (0 <? a) eqn:E, (a =? 0) eqn:F; auto; lia. Qed.

Lemma from_user_legal p o s : legal p ->
  from_user p o s = Ok (set_obj s o (written p (obj s o))).
Proof.
  intros Lg. destruct Lg. unfold from_user, set_obj, written.
  rewrite l_reply. unfold reply_step. change (nth 0 (repeat 0 32) 0 =? 0) with true. cbv iota.
  replace (if 0 <? p_ittl p then to_u32 (p_ittl p) else Ok (c_max (obj s o)))
    with (Ok (if p_ittl p =? 0 then c_max (obj s o) else p_ittl p / 1000000)).
  2:{ destruct l_ittl. destruct (0 <? p_ittl p) eqn:E, (p_ittl p =? 0) eqn:F; try lia; auto.
      unfold to_u32. assert (X : p_ittl p / 1000000 <? 4294967296 = true) by (apply Z.ltb_lt; apply Z.div_lt_upper_bound; lia).
      rewrite X. reflexivity. }
  cbn [obind].
  replace (if 0 <? p_iupd p then to_u32 (p_iupd p) else Ok 3) with (Ok (if p_iupd p =? 0 then 3 else p_iupd p / 1000000)).
  2:{ destruct l_iupd. destruct (0 <? p_iupd p) eqn:E, (p_iupd p =? 0) eqn:F; try lia; auto.
      unfold to_u32. assert (X : p_iupd p / 1000000 <? 4294967296 = true) by (apply Z.ltb_lt; apply Z.div_lt_upper_bound; lia).
      rewrite X. reflexivity. }
  cbn [obind]. rewrite !if_keep by lia. do 2 f_equal. f_equal. f_equal.
  destruct l_pol as [->|[->|[->| ->]]]; reflexivity.
Qed.

Lemma written_good p c : legal p -> good c -> good (written p c).
Proof.
  intros Lg (A & B & C & D). destruct Lg. unfold good, written. cbn [c_rep c_policy c_thr c_mode].
  split; auto. split; [|split].
  - destruct l_pol as [->|[->|[->| ->]]]; cbn; auto.
  - unfold keep. destruct (p_par p =? 0); lia.
  - destruct l_role as [->|[->| ->]]; cbn; auto.
Qed.

Lemma list_eqb_true a b : list_eqb a b = true <-> a = b.
Proof. unfold list_eqb. destruct (list_eq_dec Z.eq_dec a b); split; auto; discriminate. Qed.

Lemma set_spec p s : Inv s -> legal p ->
  exists o s', np_set_mx_properties p s = Ok (true, s') /\ Inv s' /\ (o < length (objs s'))%nat /\
    (forall h, rx s = Some (o, h) -> obj s' o = written p (obj s o)) /\
    (rx s = None -> obj s' o = written p (new_conf 3)) /\
    (rx s <> None \/ consumes p -> rx s' = Some (o, false)) /\
    (rx s = None -> ~ consumes p -> rx s' = None) /\
    (forall q h, rx s = Some (q, h) -> q = o) /\
    (provides p -> tx s' = match tx s with None => Some (o, false) | k => k end) /\
    (~ provides p -> tx s' = tx s) /\
    (provides p -> forall q, tx s' = Some (q, false) -> obj s' q = obj s' o) /\
    listeners s' = listeners s.
Proof.
  intros I Lg. unfold np_set_mx_properties.
  assert (A : (p_aud_type p =? 2) && list_eqb (p_aud_id p) zero_id = false).
  { destruct Lg. destruct (p_aud_type p =? 2) eqn:E; auto. cbn. destruct (list_eqb (p_aud_id p) zero_id) eqn:F; auto.
    apply list_eqb_true in F. exfalso. apply l_aud; auto. lia. }
  rewrite A. destruct (get_or_create DEFAULT_MODE s) as [s1 o] eqn:G.
  apply get_or_create_inv in G; [|auto|cbn; auto].
  destruct G as (I1 & L1 & R1 & T1 & N1 & S1 & Q1 & Le & C1).
  rewrite from_user_legal by auto. cbn [obind].
  set (c := written p (obj s1 o)). set (s2 := set_obj s1 o c).
  assert (Gc : good c) by (apply written_good; auto; apply obj_good; auto).
  assert (I2 : Inv s2).
  { constructor; unfold s2, set_obj; cbn [objs rx tx]; rewrite ?upd_length; [apply (i_rx s1 I1)|apply (i_tx s1 I1)|].
    apply Forall_upd; auto. apply (i_good s1 I1). }
  assert (L2 : (o < length (objs s2))%nat) by (unfold s2, set_obj; cbn; rewrite upd_length; auto).
  assert (O2 : obj s2 o = c) by (apply obj_set_eq; auto).
  pose proof (register_spec o s2 I2 L2) as H. cbv zeta in H. rewrite O2 in H.
  destruct H as (I3 & L3 & S3 & N3 & O3 & R3 & T3 & Q3 & P3 & P4).
  exists o, (register o s2). split; auto. split; auto. split; [lia|].
  assert (Rx2 : rx s2 = rx s) by (unfold s2; cbn; auto).
  assert (Tx2 : tx s2 = tx s) by (unfold s2; cbn; auto).
  rewrite Rx2 in R3. rewrite Tx2 in T3.
  assert (Mi : flag_cmp (c_mode c) 1 = true <-> consumes p).
  { unfold c, written, consumes. cbn [c_mode]. destruct Lg. destruct l_role as [->|[->| ->]]; cbn; split; auto; try discriminate; intros [|]; discriminate. }
  assert (Mo : flag_cmp (c_mode c) 2 = true <-> provides p).
  { unfold c, written, provides. cbn [c_mode]. destruct Lg. destruct l_role as [->|[->| ->]]; cbn; split; auto; try discriminate; intros [|]; discriminate. }
  assert (Own : forall h, rx s = Some (o, h) -> obj s1 o = obj s o).
  { intros h R. apply Q1. destruct (i_rx s I _ _ R). auto. }
  unfold conf_get in C1. change (flag_cmp DEFAULT_MODE INBOUND) with true in C1. cbv iota in C1.
  split; [|split; [|split; [|split; [|split; [|split; [|split; [|split]]]]]]].
  - intros h R. rewrite O3. unfold c. f_equal. eauto.
  - intros R. rewrite O3. unfold c. f_equal. rewrite R in C1. destruct C1 as [C1|C1]; [discriminate|]. tauto.
  - intros D. rewrite R3. destruct (rx s) as [[q h]|] eqn:R.
    + cbn in C1. destruct C1 as [C1|[C1 _]]; [|discriminate]. injection C1 as ->.
      destruct (i_rx s I _ _ R) as [_ ->]. destruct (flag_cmp (c_mode c) 1); auto.
    + destruct D as [D|D]; [congruence|]. apply Mi in D. rewrite D. reflexivity.
  - intros R D. rewrite R3, R. destruct (flag_cmp (c_mode c) 1) eqn:F; auto. exfalso. apply D. apply Mi; auto.
  - intros q h R. rewrite R in C1. cbn in C1. destruct C1 as [C1|[C1 _]]; [|discriminate]. injection C1 as <-. auto.
  - intros D. apply Mo in D. rewrite T3, D. reflexivity.
  - intros D. rewrite T3. destruct (flag_cmp (c_mode c) 2) eqn:F; auto. exfalso. apply D. apply Mo; auto.
  - intros D q E. rewrite O3. apply P4; auto. apply Mo; auto.
  - rewrite N3. unfold s2. cbn. auto.
Qed.

Lemma send_inv s : Inv s -> Inv (snd (np_send s)).
Proof.
  intros I. unfold np_send. destruct (get_or_create OUTBOUND s) as [s1 o] eqn:G.
  apply get_or_create_inv in G; [|auto|cbn; auto]. destruct G as (I1 & L1 & _).
  destruct (c_aud_type (obj s1 o) =? 1); auto. cbn [snd]. apply register_spec; auto.
Qed.
Lemma listen_inv s : Inv s -> Inv (np_add_receive_cb s).
Proof.
  intros I. unfold np_add_receive_cb. destruct (get_or_create INBOUND s) as [s1 o] eqn:G.
  apply get_or_create_inv in G; [|auto|cbn; auto]. destruct G as (I1 & L1 & _).
  destruct (register_spec o s1 I1 L1) as (I2 & _).
  destruct (c_aud_type (obj (register o s1) o) =? 1); auto. destruct (rx (register o s1)) eqn:R; auto.
  destruct I2. constructor; cbn [objs rx tx]; auto. rewrite <- R. auto.
Qed.
Lemma hold_inv b s : Inv s -> Inv (mkSt (objs s) (strs s) (rx s) (hold b (tx s)) (listeners s)).
Proof.
  intros I. constructor; cbn [objs rx tx].
  - apply (i_rx s I).
  - intros o h. unfold hold. destruct (tx s) as [[a x]|] eqn:T; [|discriminate].
    cbn. intros [= <- <-]. exact (i_tx s I _ _ T).
  - apply (i_good s I).
Qed.
Lemma init_inv : Inv init.
Proof. constructor; cbn; auto; discriminate. Qed.

Lemma step_inv c s : Inv s -> legal_call c -> exists s', step c s = Ok s' /\ Inv s'.
Proof.
  intros I Lg. destruct c; cbn [step].
  - destruct (set_spec p s I Lg) as (o & s' & E & I' & _). rewrite E. cbn. eauto.
  - eexists; split; eauto. apply send_inv; auto.
  - eexists; split; eauto. apply listen_inv; auto.
  - eexists; split; eauto. apply hold_inv; auto.
  - eexists; split; eauto. apply hold_inv; auto.
Qed.
Lemma run_inv h s : Inv s -> Forall legal_call h -> exists s', run h s = Ok s' /\ Inv s'.
Proof.
  intros I F. revert s I. induction F as [|c h Lg F IH]; intros s I; cbn [run]; eauto.
  destruct (step_inv c s I Lg) as (s' & E & I'). rewrite E. cbn [obind]. auto.
Qed.
Lemma run_app h1 h2 s : run (h1 ++ h2) s = obind (run h1 s) (run h2).
Proof.
  revert s; induction h1 as [|c h IH]; intros s; cbn [run app obind]; auto.
  destruct (step c s) as [x| |]; cbn [obind]; auto.
Qed.

(** reading *)
Lemma read_written p c : legal p -> good c ->
  merged p (np_msgproperty4user c) (np_msgproperty4user (written p c)).
Proof.
  intros Lg G. pose proof (written_good p c Lg G) as G'. destruct G as (A & B & C & D). destruct Lg. unfold merged, np_msgproperty4user, written.
  cbn [p_role p_ack p_policy p_cache p_par p_retry p_ittl p_iupd p_mttl c_rep c_mode c_mep c_ack c_mttl c_retry c_max c_min c_policy c_cache c_thr].
  split; [|split; [|split; [|split; [|split; [|split; [|split; [|split]]]]]]]; auto.
  - destruct l_role as [->|[->| ->]]; reflexivity.
  - destruct l_ack as [->|[->| ->]]; reflexivity.
  - destruct l_pol as [->|[->|[->| ->]]]; reflexivity.
  - rewrite (u8_id (c_thr c)) by auto. rewrite u8_id; auto. unfold keep. destruct (p_par p =? 0); lia.
  - unfold keep. destruct (p_ittl p =? 0) eqn:E; auto. destruct l_ittl as [_ M].
    pose proof (Z.div_mod (p_ittl p) 1000000). lia.
  - unfold keep. destruct (p_iupd p =? 0) eqn:E; auto. destruct l_iupd as [_ M].
    pose proof (Z.div_mod (p_iupd p) 1000000). lia.
Qed.

Lemma written_carries p c : legal p -> no_zero p -> carries (written p c) p.
Proof.
  intros Lg (A & B & C & D & E & F). unfold carries, written, keep.
  cbn [c_ack c_policy c_cache c_thr c_retry c_mttl c_max c_min c_aud_type c_aud_id].
  replace (p_cache p =? 0) with false by lia. replace (p_par p =? 0) with false by lia.
  replace (p_retry p =? 0) with false by lia. replace (p_ittl p =? 0) with false by lia.
  replace (p_iupd p =? 0) with false by lia. replace (p_mttl p =? 0) with false by lia.
  repeat split; auto.
Qed.

(** both sides hold one content that names both modes: using the channel does not change it *)
Definition both (s : st) (c : conf) : Prop :=
  c_mode c = 3 /\ (exists o, rx s = Some (o, false) /\ obj s o = c) /\ (exists o h, tx s = Some (o, h) /\ obj s o = c).

Lemma register_both s o c : Inv s -> (o < length (objs s))%nat -> both s c -> obj s o = c -> both (register o s) c.
Proof.
  intros I L (M & (a & Ra & Oa) & (b & h & Tb & Ob)) E.
  pose proof (register_spec o s I L) as H. cbv zeta in H. rewrite E, M in H.
  change (flag_cmp 3 1) with true in H. change (flag_cmp 3 2) with true in H. cbv iota in H. rewrite Ra, Tb in H.
  destruct H as (I' & L' & _ & _ & O' & R' & T' & Q & P & P').
  split; auto. split.
  - exists a. split; auto. eapply P; eauto.
  - exists b, h. split; auto. destruct h.
    + destruct (Q b) as [X|X]; auto. congruence.
    + apply P'; auto.
Qed.
Lemma use_both s c x : Inv s -> both s c -> use_call x -> exists s', step x s = Ok s' /\ Inv s' /\ both s' c.
Proof.
  intros I B U. destruct (step_inv x s I) as (s' & E & I'). { destruct U; subst; exact Logic.I. }
  exists s'. split; auto. split; auto. pose proof B as B'. destruct B' as (M & (a & Ra & Oa) & (b & h & Tb & Ob)).
  destruct U; subst x; cbn [step] in E.
  - unfold np_send, get_or_create, conf_get in E.
    change (flag_cmp OUTBOUND INBOUND) with false in E. change (flag_cmp OUTBOUND OUTBOUND) with true in E. cbv iota in E.
    rewrite Tb in E. cbn [option_map fst] in E. destruct (c_aud_type (obj s b) =? 1); cbn [snd] in E.
    + injection E as <-. auto.
    + injection E as <-. apply register_both; auto. eapply i_tx; eauto.
  - unfold np_add_receive_cb, get_or_create, conf_get in E.
    change (flag_cmp INBOUND INBOUND) with true in E. cbv iota in E. rewrite Ra in E. cbn [option_map fst] in E.
    destruct (i_rx s I _ _ Ra) as [La _].
    pose proof (register_both s a c I La B Oa) as R.
    destruct (c_aud_type (obj (register a s) a) =? 1).
    + injection E as <-. auto.
    + destruct (rx (register a s)) eqn:Rr.
      * injection E as <-. destruct R as (M' & R1 & R2). split; auto. rewrite Rr in R1. split; cbn [rx tx]; auto.
      * injection E as <-. auto.
Qed.
Lemma uses_both h s c : Inv s -> both s c -> Forall use_call h -> exists s', run h s = Ok s' /\ Inv s' /\ both s' c.
Proof.
  intros I B F. revert s I B. induction F as [|x h U F IH]; intros s I B; cbn [run]; eauto.
  destruct (use_both s c x I B U) as (s' & E & I' & B'). rewrite E. cbn [obind]. auto.
Qed.

(** holding *)
Lemma register_tx_held o s q : tx s = Some (q, true) -> tx (register o s) = Some (q, true).
Proof.
  intros T. unfold register.
  set (s1 := if flag_cmp (c_mode (obj s o)) INBOUND then _ else s).
  assert (T1 : tx s1 = Some (q, true)).
  { unfold s1. destruct (flag_cmp (c_mode (obj s o)) INBOUND); auto. unfold property_event.
    destruct (rx s) as [[p []]|]; cbn; auto. }
  clearbody s1. destruct (flag_cmp (c_mode (obj s1 o)) OUTBOUND); auto. unfold property_event. rewrite T1. cbn. auto.
Qed.
Lemma goc_tx m s : tx (fst (get_or_create m s)) = tx s.
Proof. unfold get_or_create. destruct (conf_get m s); auto. Qed.
Lemma step_held c s s' q : tx s = Some (q, true) -> c <> Enable -> step c s = Ok s' -> tx s' = Some (q, true).
Proof.
  intros T N E. destruct c; cbn [step] in E; try congruence.
  - unfold np_set_mx_properties in E. destruct (_ && _); [cbn in E; injection E as <-; auto|].
    pose proof (goc_tx DEFAULT_MODE s) as G. destruct (get_or_create DEFAULT_MODE s) as [s1 o]. cbn [fst] in G.
    destruct (from_user p o s1) as [s2| |] eqn:F; cbn in E; try discriminate. injection E as <-.
    apply register_tx_held. unfold from_user in F.
    destruct (if 0 <? p_ittl p then _ else _) as [a| |]; cbn [obind] in F; try discriminate.
    destruct (if 0 <? p_iupd p then _ else _) as [b| |]; cbn [obind] in F; try discriminate.
    destruct (reply_step _ _ _) as [[r ss]| |]; cbn [obind] in F; try discriminate. injection F as <-. cbn. congruence.
  - unfold np_send in E. pose proof (goc_tx OUTBOUND s) as G. destruct (get_or_create OUTBOUND s) as [s1 o]. cbn [fst] in G.
    destruct (c_aud_type (obj s1 o) =? 1); cbn in E; injection E as <-; [congruence|]. apply register_tx_held. congruence.
  - unfold np_add_receive_cb in E. pose proof (goc_tx INBOUND s) as G. destruct (get_or_create INBOUND s) as [s1 o]. cbn [fst] in G.
    assert (X : tx (register o s1) = Some (q, true)) by (apply register_tx_held; congruence).
    destruct (c_aud_type (obj (register o s1) o) =? 1); [injection E as <-; auto|].
    destruct (rx (register o s1)); injection E as <-; auto.
  - injection E as <-. unfold np_mx_properties_disable. cbn. rewrite T. reflexivity.
Qed.
Lemma run_held h s s' q : tx s = Some (q, true) -> ~ In Enable h -> run h s = Ok s' -> tx s' = Some (q, true).
Proof.
  revert s. induction h as [|c h IH]; intros s T N E; cbn [run] in E.
  - injection E as <-. auto.
  - destruct (step c s) as [s1| |] eqn:F; cbn [obind] in E; try discriminate.
    apply (IH s1); auto.
    + apply (step_held c s s1 q); auto. intros ->. apply N. left; auto.
    + intros X. apply N. right; auto.
Qed.

(** what all objects have in common is not changed by uses of the channel *)
Section Common.
Variable P : conf -> Prop.
Hypothesis New : forall m, P (new_conf m).
Lemma common_obj s o : Forall P (objs s) -> P (obj s o).
Proof.
  intros F. unfold obj. destruct (Nat.lt_ge_cases o (length (objs s))) as [L|L].
  - rewrite Forall_forall in F. apply F. apply nth_In. auto.
  - rewrite nth_overflow by auto. apply New.
Qed.
Lemma common_upd l i c : Forall P l -> P c -> Forall P (upd l i c).
Proof. intros F C. revert i. induction F; intros [|i]; cbn [upd]; auto; constructor; auto. Qed.
Lemma common_event k o s : Forall P (objs s) -> Forall P (objs (snd (property_event k o s))).
Proof.
  intros F. unfold property_event. destruct k as [[p []]|]; cbn [snd]; auto.
  unfold set_obj. cbn [objs]. apply common_upd; auto. apply common_obj; auto.
Qed.
Lemma common_register o s : Forall P (objs s) -> Forall P (objs (register o s)).
Proof.
  intros F. unfold register.
  set (s1 := if flag_cmp (c_mode (obj s o)) INBOUND then _ else s).
  assert (F1 : Forall P (objs s1)).
  { unfold s1. destruct (flag_cmp (c_mode (obj s o)) INBOUND); auto.
    pose proof (common_event (rx s) o s F) as X. destruct (property_event (rx s) o s) as [k s']. exact X. }
  destruct (flag_cmp (c_mode (obj s1 o)) OUTBOUND); auto.
  pose proof (common_event (tx s1) o s1 F1) as X. destruct (property_event (tx s1) o s1) as [k s']. exact X.
Qed.
Lemma common_goc m s : Forall P (objs s) -> Forall P (objs (fst (get_or_create m s))).
Proof.
  intros F. unfold get_or_create. destruct (conf_get m s); cbn [fst objs]; auto. apply Forall_app. split; auto.
Qed.
Lemma common_step c s s' : (forall p, c <> Set_ p) -> Forall P (objs s) -> step c s = Ok s' -> Forall P (objs s').
Proof.
  intros N F E. destruct c as [p| | | |]; cbn [step] in E; [exfalso; apply (N p); reflexivity| | | |]; injection E as <-; auto.
  - unfold np_send. pose proof (common_goc OUTBOUND s F) as G. destruct (get_or_create OUTBOUND s) as [s1 o]. cbn [fst] in G.
    destruct (c_aud_type (obj s1 o) =? 1); cbn [snd]; auto. apply common_register; auto.
  - unfold np_add_receive_cb. pose proof (common_goc INBOUND s F) as G. destruct (get_or_create INBOUND s) as [s1 o]. cbn [fst] in G.
    pose proof (common_register o s1 G) as G2. destruct (c_aud_type _ =? 1); auto. destruct (rx (register o s1)); auto.
Qed.
Lemma common_run h s s' : (forall p, ~ In (Set_ p) h) -> Forall P (objs s) -> run h s = Ok s' -> Forall P (objs s').
Proof.
  revert s. induction h as [|c h IH]; intros s N F E; cbn [run] in E; [congruence|].
  destruct (step c s) as [s1| |] eqn:S1; cbn [obind] in E; try discriminate.
  apply (IH s1); auto.
  - intros p I. apply (N p). right. auto.
  - eapply common_step; [|eassumption|eassumption]. intros p ->. apply (N p). left. auto.
Qed.
End Common.
