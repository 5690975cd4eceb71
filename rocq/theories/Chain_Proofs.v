From Coq Require Import String Ascii.
From Verif Require Import Base Mx_Model Chain_Model Chain_Spec.
Open Scope list_scope.
Open Scope Z_scope.

(** ** Names *)
Lemma not_named s name : subject_text s -> is_named s (String.String "_"%char name) = false.
Proof.
  intros [L F]. unfold is_named. destruct s as [|c s]; [discriminate|]. cbn [firstn]. cbn [text list_ascii_of_string map begins].
  inversion F; subst. destruct (Z.eqb_spec c (Z.of_nat (Ascii.nat_of_ascii "_"%char))) as [E|E]; [|reflexivity].
  change (Z.of_nat (Ascii.nat_of_ascii "_"%char)) with 95 in E. lia.
Qed.
Lemma loads_nothing s inb : subject_text s -> load_internal_callback s inb = [].
Proof. intros T. unfold load_internal_callback. rewrite !not_named by exact T. reflexivity. Qed.

(** ** Settings *)
Lemma step_set p s s' : step (Set_ p) s = Ok s' -> accepted p ->
  exists s1 o s2, get_or_create DEFAULT_MODE s = (s1, o) /\ from_user p o s1 = Ok s2 /\ s' = register o s2.
Proof.
  intros H A. cbn [step] in H. unfold np_set_mx_properties in H.
  destruct ((p_aud_type p =? 2) && list_eqb (p_aud_id p) zero_id) eqn:E.
  - exfalso. apply A. apply andb_prop in E as [E1 E2]. split; [lia|]. unfold list_eqb in E2.
    destruct (list_eq_dec Z.eq_dec (p_aud_id p) zero_id); [assumption | discriminate].
  - destruct (get_or_create DEFAULT_MODE s) as [s1 o] eqn:G. destruct (from_user p o s1) as [s2| |] eqn:F; cbn [obind] in H; try discriminate.
    exists s1, o, s2. split; [reflexivity|]. split; [exact F|]. cbn [snd] in H. congruence.
Qed.
Lemma step_refused p s s' : step (Set_ p) s = Ok s' -> ~ accepted p -> s' = s.
Proof.
  intros H A. cbn [step] in H. unfold np_set_mx_properties in H.
  destruct ((p_aud_type p =? 2) && list_eqb (p_aud_id p) zero_id) eqn:E.
  - cbn in H. congruence.
  - exfalso. apply A. intros [E1 E2]. rewrite E1, E2 in E. vm_compute in E. discriminate.
Qed.

(** objects the keys point to exist *)
Definition points (s : st) : Prop :=
  (forall o b, rx s = Some (o, b) -> (o < length (objs s))%nat /\ b = false) /\ (forall o b, tx s = Some (o, b) -> (o < length (objs s))%nat).
Lemma from_user_keys p o s s' : from_user p o s = Ok s' ->
  rx s' = rx s /\ tx s' = tx s /\ listeners s' = listeners s /\ length (objs s') = length (objs s) /\
  (forall q, q <> o -> obj s' q = obj s q) /\
  ((o < length (objs s))%nat -> c_aud_type (obj s' o) = p_aud_type p /\ c_unique (obj s' o) = true /\
     c_ack (obj s' o) = (if p_ack p =? 1 then 2 else if p_ack p =? 2 then 4 else 1) /\
     c_mode (obj s' o) = (if p_role p =? 1 then 1 else if p_role p =? 0 then 2 else 3)).
Proof.
  unfold from_user. intros H.
  destruct (if 0 <? p_ittl p then to_u32 (p_ittl p) else Ok (c_max (obj s o))); cbn [obind] in H; try discriminate.
  destruct (if 0 <? p_iupd p then to_u32 (p_iupd p) else Ok 3); cbn [obind] in H; try discriminate.
  destruct (reply_step (c_rep (obj s o)) (p_reply p) (strs s)) as [[rep ss]| |]; cbn [obind] in H; try discriminate.
  injection H as <-. cbn [rx tx listeners objs]. rewrite upd_length. repeat (split; [reflexivity|]).
  split.
  - intros q Q. unfold obj. cbn [objs]. apply upd_nth_neq. congruence.
  - intros L. unfold obj. cbn [objs]. rewrite upd_nth_eq by exact L. cbn. auto.
Qed.


Lemma event_spec k o s k' s' : property_event k o s = (k', s') ->
  k' = match k with None => Some (o, false) | _ => k end /\ rx s' = rx s /\ tx s' = tx s /\ listeners s' = listeners s /\
  length (objs s') = length (objs s) /\ (forall q, obj s' q = obj s q \/ obj s' q = obj s o) /\ obj s' o = obj s o.
Proof.
  unfold property_event. intros H. destruct k as [[p []]|]; injection H as <- <-; try (repeat split; auto; fail).
  assert (X : forall q, obj (set_obj s p (obj s o)) q = obj s q \/ obj (set_obj s p (obj s o)) q = obj s o).
  { intros q. unfold obj at 1 4, set_obj. cbn [objs]. destruct (Nat.eq_dec p q) as [->|N].
    - destruct (Nat.lt_ge_cases q (length (objs s))) as [L|L]; [right; apply upd_nth_eq; auto | left; rewrite upd_out by auto; reflexivity].
    - left. apply upd_nth_neq. auto. }
  split; [reflexivity|]. split; [reflexivity|]. split; [reflexivity|]. split; [reflexivity|].
  split; [unfold set_obj; cbn [objs]; apply upd_length|]. split; [exact X|]. destruct (X o); auto.
Qed.
Definition first_of (b : bool) (k : option (nat * bool)) (o : nat) : option (nat * bool) :=
  if b then match k with None => Some (o, false) | k => k end else k.
Lemma register_keys o s : let s' := register o s in let m := c_mode (obj s o) in
  rx s' = first_of (flag_cmp m 1) (rx s) o /\ tx s' = first_of (flag_cmp m 2) (tx s) o /\ listeners s' = listeners s /\
  length (objs s') = length (objs s) /\ (forall q, obj s' q = obj s q \/ obj s' q = obj s o) /\ obj s' o = obj s o.
Proof.
  cbv zeta. unfold register, INBOUND, OUTBOUND.
  set (s1 := if flag_cmp (c_mode (obj s o)) 1 then _ else s).
  assert (H : rx s1 = first_of (flag_cmp (c_mode (obj s o)) 1) (rx s) o /\ tx s1 = tx s /\ listeners s1 = listeners s /\
     length (objs s1) = length (objs s) /\ (forall q, obj s1 q = obj s q \/ obj s1 q = obj s o) /\ obj s1 o = obj s o).
  { unfold s1, first_of. destruct (flag_cmp (c_mode (obj s o)) 1).
    - destruct (property_event (rx s) o s) as [k s'] eqn:E. destruct (event_spec _ _ _ _ _ E) as (A & B & C & D & F & G & I).
      cbn [rx tx listeners objs]. split; [exact A|]. split; [exact C|]. split; [exact D|]. split; [exact F|]. split; [exact G | exact I].
    - repeat split; auto. }
  clearbody s1. destruct H as (A & B & C & D & F & G). rewrite G.
  destruct (flag_cmp (c_mode (obj s o)) 2).
  - destruct (property_event (tx s1) o s1) as [k s'] eqn:E. destruct (event_spec _ _ _ _ _ E) as (A' & B' & C' & D' & F' & G' & I').
    cbn [rx tx listeners objs]. split; [congruence|]. split; [unfold first_of; rewrite A', B; reflexivity|]. split; [congruence|]. split; [congruence|].
    split.
    + intros q. change (obj s' q = obj s q \/ obj s' q = obj s o). destruct (G' q) as [X|X]; rewrite X; [apply F | right; exact G].
    + change (obj s' o = obj s o). congruence.
  - repeat split; auto.
Qed.
Lemma goc_keys m s s1 o : get_or_create m s = (s1, o) ->
  rx s1 = rx s /\ tx s1 = tx s /\ listeners s1 = listeners s /\ (length (objs s) <= length (objs s1))%nat /\
  (points s -> (o < length (objs s1))%nat) /\ (forall q, (q < length (objs s))%nat -> obj s1 q = obj s q) /\
  match conf_get m s with
  | Some p => s1 = s /\ o = p
  | None => o = length (objs s) /\ obj s1 o = new_conf m
  end.
Proof.
  unfold get_or_create. intros H. destruct (conf_get m s) as [p|] eqn:E; injection H as <- <-.
  - repeat (split; [auto|]); auto. intros [P1 P2]. unfold conf_get in E.
    destruct (flag_cmp m INBOUND).
    + destruct (rx s) as [[q b]|] eqn:R; cbn in E; [injection E as <-; apply (P1 q b eq_refl) | discriminate].
    + destruct (flag_cmp m OUTBOUND); [|discriminate]. destruct (tx s) as [[q b]|] eqn:R; cbn in E; [injection E as <-; apply (P2 q b eq_refl) | discriminate].
  - cbn [rx tx listeners objs]. rewrite app_length. cbn [length]. split; [reflexivity|]. split; [reflexivity|]. split; [reflexivity|]. split; [lia|]. split; [intros _; lia|]. split; [|split; [reflexivity|]].
    + intros q L. unfold obj. cbn [objs]. apply app_nth1. exact L.
    + unfold obj. cbn [objs]. rewrite app_nth2 by lia. rewrite Nat.sub_diag. reflexivity.
Qed.

(** ** One call *)
(** keys are never lost, and the receiving key is never held *)
Definition grows (a b : option (nat * bool)) : Prop := forall o h, a = Some (o, h) -> exists h', b = Some (o, h').
Lemma first_grows b k o : grows k (first_of b k o).
Proof. intros q h ->. unfold first_of. destruct b; eauto. Qed.
Lemma grows_refl a : grows a a. Proof. intros o h H. eauto. Qed.
Lemma grows_trans a b c : grows a b -> grows b c -> grows a c.
Proof. intros X Y o h H. destruct (X _ _ H) as [h' H']. eauto. Qed.

Lemma points_register o s : points s -> (o < length (objs s))%nat -> points (register o s).
Proof.
  intros [P1 P2] L. destruct (register_keys o s) as (A & B & _ & D & _). split; intros q b Q; rewrite D.
  - rewrite A in Q. unfold first_of in Q. destruct (flag_cmp (c_mode (obj s o)) 1); [destruct (rx s) as [[r c]|]|]; try (apply P1; assumption).
    injection Q as <- <-. auto.
  - rewrite B in Q. unfold first_of in Q. destruct (flag_cmp (c_mode (obj s o)) 2); [destruct (tx s) as [[r c]|]|]; try (eapply P2; eassumption).
    injection Q as <- <-. auto.
Qed.
Lemma points_same s s' : rx s' = rx s -> tx s' = tx s -> (length (objs s) <= length (objs s'))%nat -> points s -> points s'.
Proof.
  intros R T L [P1 P2]. split; intros q b Q.
  - rewrite R in Q. destruct (P1 q b Q). split; [lia | auto].
  - rewrite T in Q. pose proof (P2 q b Q). lia.
Qed.
(** every call either leaves keys and objects as they are (up to holding) or registers an object *)
Inductive kind (c : call) (s s' : st) : Prop :=
| Same : rx s' = rx s -> grows (tx s) (tx s') -> grows (tx s') (tx s) -> (length (objs s) <= length (objs s'))%nat ->
    (forall q, (q < length (objs s))%nat -> obj s' q = obj s q) -> listeners s' = listeners s -> c <> Listen ->
    (forall p, c = Set_ p -> ~ accepted p) -> kind c s s'
| Registers : forall s1 o, points s1 -> (o < length (objs s1))%nat -> rx s1 = rx s -> tx s1 = tx s -> listeners s1 = listeners s ->
    (length (objs s) <= length (objs s1))%nat ->
    (forall q, (q < length (objs s))%nat -> q <> o \/ (forall p, c <> Set_ p) -> obj s1 q = obj s q) ->
    match c with
    | Set_ p => accepted p /\ c_aud_type (obj s1 o) = p_aud_type p /\ c_unique (obj s1 o) = true /\
        c_ack (obj s1 o) = (if p_ack p =? 1 then 2 else if p_ack p =? 2 then 4 else 1) /\
        c_mode (obj s1 o) = (if p_role p =? 1 then 1 else if p_role p =? 0 then 2 else 3) /\
        match rx s with Some (q, _) => o = q | None => (length (objs s) <= o)%nat end
    | Send => c_aud_type (obj s1 o) <> 1 /\ match tx s with Some (q, _) => o = q | None => obj s1 o = new_conf 2 /\ (length (objs s) <= o)%nat end
    | Listen => match rx s with Some (q, _) => o = q | None => obj s1 o = new_conf 1 /\ (length (objs s) <= o)%nat end
    | _ => False
    end ->
    rx s' = rx (register o s1) -> tx s' = tx (register o s1) -> objs s' = objs (register o s1) ->
    (listeners s' = listeners s \/ listeners s' = S (listeners s) /\ c = Listen /\ c_aud_type (obj s1 o) <> 1) -> kind c s s'.

Lemma step_kind c s s' : points s -> step c s = Ok s' -> kind c s s'.
Proof.
  intros P H. destruct c as [p| | | |].
  - assert (D : accepted p \/ ~ accepted p).
    { unfold accepted. destruct (Z.eq_dec (p_aud_type p) 2); [destruct (list_eq_dec Z.eq_dec (p_aud_id p) (repeat 0 32))|]; tauto. }
    destruct D as [A|A].
    + destruct (step_set p s s' H A) as (s1 & o & s2 & G & F & ->).
      destruct (goc_keys _ _ _ _ G) as (K1 & K2 & K3 & K4 & K5 & K6 & K7). specialize (K5 P).
      destruct (from_user_keys p o s1 s2 F) as (U1 & U2 & U3 & U4 & U5 & U6). specialize (U6 K5). destruct U6 as (U6 & U7 & U8 & U9).
      eapply (Registers _ _ _ s2 o); try congruence; auto.
      * eapply points_same; [exact U1 | exact U2 | lia |]. eapply points_same; eauto.
      * intros q Q [X|X]; [|exfalso; apply (X p); reflexivity]. rewrite U5 by exact X. apply K6; exact Q.
      * split; [exact A|]. repeat (split; [assumption|]). change (conf_get DEFAULT_MODE s) with (option_map fst (rx s)) in K7.
        destruct (rx s) as [[q b]|]; cbn [option_map fst] in K7; [apply K7 | destruct K7; lia].
      * left. rewrite (proj1 (proj2 (proj2 (register_keys o s2)))). congruence.
    + rewrite (step_refused p s s' H A). apply Same; auto using grows_refl; try discriminate. intros q E. injection E as <-. exact A.
  - cbn [step] in H. injection H as <-. unfold np_send. destruct (get_or_create OUTBOUND s) as [s1 o] eqn:G.
    destruct (goc_keys _ _ _ _ G) as (K1 & K2 & K3 & K4 & K5 & K6 & K7). specialize (K5 P).
    destruct (Z.eqb_spec (c_aud_type (obj s1 o)) 1) as [E|E]; cbn [snd].
    + apply Same; auto; try discriminate; rewrite ?K2; apply grows_refl.
    + eapply (Registers _ _ _ s1 o); auto.
      * eapply points_same; eauto.
      * split; [exact E|]. change (conf_get OUTBOUND s) with (option_map fst (tx s)) in K7.
        destruct (tx s) as [[q b]|]; cbn [option_map fst] in K7; [apply K7 | destruct K7; split; [assumption | lia]].
      * left. rewrite (proj1 (proj2 (proj2 (register_keys o s1)))). congruence.
  - cbn [step] in H. injection H as <-. unfold np_add_receive_cb. destruct (get_or_create INBOUND s) as [s1 o] eqn:G.
    destruct (goc_keys _ _ _ _ G) as (K1 & K2 & K3 & K4 & K5 & K6 & K7). specialize (K5 P).
    destruct (register_keys o s1) as (R1 & R2 & R3 & R4 & R5 & R6). cbv zeta in *.
    eapply (Registers _ _ _ s1 o); auto.
    + eapply points_same; eauto.
    + change (conf_get INBOUND s) with (option_map fst (rx s)) in K7.
      destruct (rx s) as [[q b]|]; cbn [option_map fst] in K7; [apply K7 | destruct K7; split; [assumption | lia]].
    + destruct (_ =? 1); [reflexivity | destruct (rx (register o s1)) eqn:RR; cbn [rx tx objs]; congruence].
    + destruct (_ =? 1); [reflexivity | destruct (rx (register o s1)) eqn:RR; cbn [rx tx objs]; congruence].
    + destruct (_ =? 1); [reflexivity | destruct (rx (register o s1)) eqn:RR; cbn [rx tx objs]; congruence].
    + rewrite R6. destruct (Z.eqb_spec (c_aud_type (obj s1 o)) 1) as [E|E].
      * left. congruence.
      * destruct (rx (register o s1)); [right; cbn [listeners] | left]; rewrite ?R3, K3; auto.
  - cbn [step] in H. injection H as <-. apply Same; auto; try discriminate; cbn [tx np_mx_properties_disable];
      unfold hold; intros q b Q; [rewrite Q; cbn; eauto|]. destruct (tx s) as [[r c]|]; [injection Q as <- <-; eauto | discriminate].
  - cbn [step] in H. injection H as <-. apply Same; auto; try discriminate; cbn [tx np_mx_properties_enable];
      unfold hold; intros q b Q; [rewrite Q; cbn; eauto|]. destruct (tx s) as [[r c]|]; [injection Q as <- <-; eauto | discriminate].
Qed.

(** ** Channels *)
Record sound (s : st) : Prop := {
  s_points : points s;
  s_quiet : rx s = None -> forall q b, tx s = Some (q, b) -> flag_cmp (c_mode (obj s q)) 1 = false }.
Lemma sound_init : sound init.
Proof. split; [split|]; cbn; intros; discriminate. Qed.
Lemma kind_sound c s s' : sound s -> kind c s s' -> sound s'.
Proof.
  intros [P Q] K. destruct K as [R G1 G2 L O _ _ _ | s1 o P1 L1 R1 T1 _ L2 O1 C R T O _].
  - split.
    + destruct P as [P1 P2]. split.
      * intros q b E. rewrite R in E. destruct (P1 q b E). split; [lia | auto].
      * intros q b E. destruct (G2 q b E) as [b' E']. pose proof (P2 q b' E'). lia.
    + intros N q b E. rewrite R in N. destruct (G2 q b E) as [b' E']. rewrite O by (eapply P; eauto). eapply Q; eauto.
  - pose proof (points_register o s1 P1 L1) as P'. destruct (register_keys o s1) as (A & B & _ & D & F & G).
    assert (Eo : forall q, obj s' q = obj (register o s1) q) by (intros q; unfold obj; rewrite O; reflexivity).
    split.
    + destruct P' as [P2 P3]. split; intros q b E; rewrite O; [rewrite R in E | rewrite T in E]; eauto.
    + intros N q b E. rewrite Eo. rewrite R, A in N. rewrite T, B in E.
      destruct (flag_cmp (c_mode (obj s1 o)) 1) eqn:M; [unfold first_of in N; destruct (rx s1); discriminate|].
      destruct (F q) as [X|X]; rewrite X; auto.
      assert (W : q = o \/ exists b', tx s = Some (q, b')).
      { unfold first_of in E. rewrite T1 in E. destruct (flag_cmp (c_mode (obj s1 o)) 2); [destruct (tx s) as [[r d]|]|]; eauto. injection E as <- _. auto. }
      destruct W as [->|[b' W]]; auto. cbn [first_of] in N. rewrite R1 in N.
      destruct (Nat.eq_dec q o) as [->|Nq]; auto. rewrite O1; eauto. apply P in W. exact W.
Qed.

(** the receiving key: kept, or made by the first settings or the first callback *)
Lemma rx_step subject c n n' : sound (mx n) -> do_call subject c n = Ok n' ->
  sound (mx n') /\ seen n' = seen n /\ kind c (mx n) (mx n') /\
  ((rx (mx n') = rx (mx n) /\ rx_chain n' = rx_chain n /\ (rx (mx n) = None -> c <> Listen /\ forall p, c = Set_ p -> accepted p -> ~ receives p)) \/
   (rx (mx n) = None /\ exists o, rx (mx n') = Some (o, false) /\
      ((c = Listen /\ rx_chain n' = Some (create_runtime_info false true 1 0 subject)) \/
       exists p, c = Set_ p /\ accepted p /\ receives p /\
         rx_chain n' = Some (create_runtime_info false true (if p_ack p =? 1 then 2 else if p_ack p =? 2 then 4 else 1) (p_aud_type p) subject)))).
Proof.
  intros S H. unfold do_call in H. destruct (step c (mx n)) as [s'| |] eqn:E; cbn [obind] in H; try discriminate. injection H as <-.
  cbn [mx rx_chain seen]. pose proof (step_kind c _ _ (s_points _ S) E) as K. split; [eapply kind_sound; eauto|]. split; [reflexivity|]. split; [exact K|].
  destruct K as [R _ _ _ _ _ NL NA | s1 o P1 L1 R1 T1 _ L2 O1 C R T O _].
  - left. split; [exact R|]. unfold made. rewrite R. split; [destruct (rx (mx n)) as [[? ?]|]; reflexivity|].
    intros _. split; [exact NL|]. intros p Ep A. exfalso. eapply NA; eauto.
  - destruct (register_keys o s1) as (A & B & _ & D & F & G).
    assert (Eo : obj s' o = obj s1 o) by (unfold obj at 1; rewrite O; exact G).
    rewrite R, A, R1. unfold first_of, made.
    destruct (rx (mx n)) as [[q b]|] eqn:X.
    { left. destruct (flag_cmp (c_mode (obj s1 o)) 1); split; try reflexivity; split; try reflexivity; discriminate. }
    destruct (flag_cmp (c_mode (obj s1 o)) 1) eqn:M.
    + right. split; [reflexivity|]. exists o. split; [reflexivity|]. rewrite Eo. destruct c as [p| | | |]; try contradiction.
      * right. exists p. destruct C as (C1 & C2 & C3 & C4 & C5 & C6). rewrite C2, C4. split; [reflexivity|]. split; [exact C1|].
        split; [|reflexivity]. intros Z0. rewrite C5, Z0 in M. vm_compute in M. discriminate.
      * exfalso. destruct C as [_ C]. destruct (tx (mx n)) as [[q b]|] eqn:T'.
        -- subst q. pose proof (s_quiet _ S X o b T') as W. rewrite O1 in M; [congruence | eapply (s_points _ S); eauto | right; discriminate].
        -- rewrite (proj1 C) in M. vm_compute in M. discriminate.
      * left. rewrite (proj1 C). split; reflexivity.
    + left. split; [reflexivity|]. split; [reflexivity|]. intros _. split.
      * intros ->. rewrite (proj1 C) in M. vm_compute in M. discriminate.
      * intros p -> _ Rv. destruct C as (_ & _ & _ & _ & C5 & _). rewrite C5 in M. unfold receives in Rv.
        destruct (p_role p =? 1); [discriminate|]. destruct (Z.eqb_spec (p_role p) 0); [contradiction | discriminate].
Qed.
(** the sending key *)
Lemma tx_step subject c n n' : sound (mx n) -> do_call subject c n = Ok n' ->
  (tx (mx n) <> None -> tx_chain n' = tx_chain n /\ tx (mx n') <> None) /\
  (tx (mx n) = None ->
     tx (mx n') = None /\ tx_chain n' = tx_chain n /\ (forall p, c = Set_ p -> accepted p -> ~ sends p) \/
     tx (mx n') <> None /\
       (tx_chain n' = Some (create_runtime_info false false 1 0 subject) /\ (forall p, c = Set_ p -> ~ virtual p) \/
        exists p, c = Set_ p /\ accepted p /\ sends p /\ tx_chain n' = Some (create_runtime_info false false 1 (p_aud_type p) subject)) \/
     c = Listen /\ (tx (mx n') = None /\ tx_chain n' = tx_chain n \/
       tx (mx n') <> None /\ exists aud, tx_chain n' = Some (create_runtime_info false false 1 aud subject))).
Proof.
  intros S H. unfold do_call in H. destruct (step c (mx n)) as [s'| |] eqn:E; cbn [obind] in H; try discriminate. injection H as <-.
  cbn [mx tx_chain]. pose proof (step_kind c _ _ (s_points _ S) E) as K.
  destruct K as [R G1 G2 _ _ _ NL NA | s1 o P1 L1 R1 T1 _ L2 O1 C R T O _].
  - split.
    + intros N. destruct (tx (mx n)) as [[q b]|] eqn:X; [|contradiction]. destruct (G1 q b eq_refl) as [b' ->]. split; [reflexivity | discriminate].
    + intros N. left. rewrite N. assert (N' : tx s' = None).
      { destruct (tx s') as [[q b]|]; auto. destruct (G2 q b eq_refl) as [b' X]. congruence. }
      rewrite N'. split; [reflexivity|]. split; [reflexivity|]. intros p Ep A. exfalso. eapply NA; eauto.
  - destruct (register_keys o s1) as (A & B & _ & D & F & G).
    assert (Eo : obj s' o = obj s1 o) by (unfold obj at 1; rewrite O; exact G).
    rewrite T, B, T1. unfold first_of, made. destruct (tx (mx n)) as [[q b]|] eqn:X.
    { split; [|discriminate]. intros _. destruct (flag_cmp (c_mode (obj s1 o)) 2); split; try reflexivity; discriminate. }
    split; [contradiction|]. intros _. destruct c as [p| | | |]; try contradiction.
    3:{ right. right. split; [reflexivity|]. destruct (flag_cmp (c_mode (obj s1 o)) 2); [right | left; split; reflexivity].
        split; [discriminate|]. exists (c_aud_type (obj s' o)). reflexivity. }
    + destruct C as (C1 & C2 & C3 & C4 & C5 & C6). destruct (flag_cmp (c_mode (obj s1 o)) 2) eqn:M.
      * right. left. split; [discriminate|]. right. exists p. split; [reflexivity|]. split; [exact C1|]. rewrite Eo, C2. split; [|reflexivity].
        intros Z0. rewrite C5, Z0 in M. vm_compute in M. discriminate.
      * left. split; [reflexivity|]. split; [reflexivity|]. intros q Ep _ Sd. injection Ep as <-. rewrite C5 in M. unfold sends in Sd.
        destruct (Z.eqb_spec (p_role p) 1); [contradiction|]. destruct (p_role p =? 0); discriminate.
    + destruct C as [C1 [C2 _]]. rewrite C2. cbn [c_mode new_conf]. right. left. change (flag_cmp 2 2) with true. cbn iota.
      split; [discriminate|]. left. split; [|discriminate]. rewrite Eo, C2. reflexivity.
Qed.

(** ** Lists of handlers *)
Definition in_list (a w : bool) : list handler := (if a then [check_and_send_destination_ack] else []) ++ (if w then [in_callback_wrapper] else []).
Definition out_list (w : bool) : list handler := if w then [out_callback_wrapper; out_default] else [].
Lemma create_in subject ack aud : subject_text subject ->
  create_runtime_info false true ack aud subject = in_list (flag_cmp ack 2) (negb (aud =? 1)).
Proof. intros T. unfold create_runtime_info, in_list. cbn [negb andb]. rewrite loads_nothing by exact T. destruct (aud =? 1); reflexivity. Qed.
Lemma create_out subject ack aud : subject_text subject -> create_runtime_info false false ack aud subject = out_list (negb (aud =? 1)).
Proof. intros T. unfold create_runtime_info, out_list. cbn [negb andb]. rewrite loads_nothing by exact T. destruct (aud =? 1); reflexivity. Qed.

Definition known (m : incoming) (n : channel) : bool := existsb (Z.eqb (i_uuid m)) (seen n).
Definition acks (a : bool) (m : incoming) : list effect := if a && (i_wants_ack m && i_way_back m) then [Acked (i_uuid m)] else [].
Definition given (m : incoming) (k : nat) : list effect := map (Given (i_uuid m)) (seq 0 k).
Lemma chain_in m a w : chain_of receive_one m (in_list a w) =
  (negb w || i_opens m, acks a m ++ (if w && i_opens m then [Opened (i_uuid m)] else [])).
Proof.
  unfold in_list, acks. destruct a, w; cbn [app chain_of receive_one andb orb negb]; destruct (i_opens m), (i_wants_ack m && i_way_back m); reflexivity.
Qed.
Lemma arrive_eq m n o a w : rx (mx n) = Some (o, false) -> rx_chain n = Some (in_list a w) ->
  fst (arrive m n) =
    if c_unique (obj (mx n) o) && known m n then []
    else acks a m ++ (if w && i_opens m then [Opened (i_uuid m)] else []) ++
         (if (negb w || i_opens m) && negb (c_aud_type (obj (mx n) o) =? 1) then given m (listeners (mx n)) else []).
Proof.
  intros R C. unfold arrive. rewrite R, C. fold (known m n). destruct (c_unique (obj (mx n) o) && known m n); [reflexivity|].
  rewrite chain_in. cbn [fst]. rewrite <- app_assoc. reflexivity.
Qed.
Lemma arrive_same m n : let n' := snd (arrive m n) in mx n' = mx n /\ rx_chain n' = rx_chain n /\ tx_chain n' = tx_chain n /\
  (forall u, In u (seen n') -> In u (seen n) \/ u = i_uuid m).
Proof.
  cbv zeta. unfold arrive. destruct (rx (mx n)) as [[o []]|]; cbn [snd]; auto. destruct (rx_chain n) as [hs|] eqn:C; [|repeat split; auto].
  fold (known m n). destruct (c_unique (obj (mx n) o)); cbn [andb].
  - destruct (known m n); [|destruct (chain_of receive_one m hs)]; cbn [negb snd mx rx_chain tx_chain seen]; repeat split; auto.
    intros u. rewrite in_app_iff. cbn [In]. intuition.
  - destruct (chain_of receive_one m hs); cbn [snd mx rx_chain tx_chain seen]; repeat split; auto.
Qed.

(** ** Histories *)
Lemma history_app subject a : forall b n, history subject (a ++ b) n =
  obind (history subject a n) (fun '(x, n1) => obind (history subject b n1) (fun '(y, n2) => Ok (x ++ y, n2))).
Proof.
  induction a as [|e a IH]; intros b n; cbn [app history obind].
  - destruct (history subject b n) as [[y n2]| |]; reflexivity.
  - destruct (happen subject e n) as [[x n1]| |]; cbn [obind]; auto. rewrite IH. destruct (history subject a n1) as [[y n2]| |]; cbn [obind]; auto.
    destruct (history subject b n2) as [[z n3]| |]; cbn [obind]; auto. rewrite app_assoc. reflexivity.
Qed.
(** an invariant, and what holds of all effects *)
Lemma history_inv (subject : list Z) (ok : event -> Prop) (I : channel -> Prop) (E : list effect -> Prop) :
  E [] -> (forall a b, E a -> E b -> E (a ++ b)) ->
  (forall e n t n', ok e -> I n -> happen subject e n = Ok (t, n') -> I n' /\ E t) ->
  forall h n t n', Forall ok h -> I n -> history subject h n = Ok (t, n') -> I n' /\ E t.
Proof.
  intros E0 Ea S h. induction h as [|e h IH]; intros n t n' F In H; cbn [history] in H.
  - injection H as <- <-. auto.
  - inversion F; subst. destruct (happen subject e n) as [[x n1]| |] eqn:X; cbn [obind] in H; try discriminate.
    destruct (history subject h n1) as [[y n2]| |] eqn:Y; cbn [obind] in H; try discriminate. injection H as <- <-.
    destruct (S e n x n1) as [I1 E1]; auto. destruct (IH n1 y n2) as [I2 E2]; auto.
Qed.
Lemma happen_cases subject e n t n' : happen subject e n = Ok (t, n') ->
  match e with
  | Call c => t = [] /\ do_call subject c n = Ok n'
  | SendMsg m => (t = [] \/ t = leave m n') /\ do_call subject Send n = Ok n'
  | Arrive m => t = fst (arrive m n) /\ n' = snd (arrive m n)
  end.
Proof.
  intros H. destruct e as [c|m|m]; cbn [happen] in H.
  - destruct (do_call subject c n); cbn [obind] in H; try discriminate. injection H as <- <-. auto.
  - destruct (np_send (mx n)) as [[ok ?] ?]. destruct (do_call subject Send n); cbn [obind] in H; try discriminate. injection H as <- <-.
    destruct ok; auto.
  - injection H as H. destruct (arrive m n); cbn [fst snd] in *; injection H as <- <-; auto.
Qed.

(** the lists are what they are at all times *)
Record formed (n : channel) : Prop := {
  f_sound : sound (mx n);
  f_rx : match rx (mx n) with Some (o, b) => b = false /\ exists a w, rx_chain n = Some (in_list a w) | None => rx_chain n = None end;
  f_tx : match tx (mx n) with Some _ => exists w, tx_chain n = Some (out_list w) | None => tx_chain n = None end }.
Lemma formed_start : formed start.
Proof. split; [exact sound_init | reflexivity | reflexivity]. Qed.
Lemma formed_call subject c n n' : subject_text subject -> formed n -> do_call subject c n = Ok n' -> formed n'.
Proof.
  intros T [S R X] H. destruct (rx_step subject c n n' S H) as (S' & _ & _ & K). destruct (tx_step subject c n n' S H) as [K1 K2].
  split; auto.
  - destruct K as [(A & B & _)|(A & o & B & [(_ & C)|(p & _ & _ & _ & C)])].
    + rewrite A, B. exact R.
    + rewrite B, C, create_in by exact T. eauto.
    + rewrite B, C, create_in by exact T. eauto.
  - destruct (tx (mx n)) as [q|] eqn:Q.
    + destruct K1 as [A B]; [discriminate|]. destruct (tx (mx n')); [|contradiction]. rewrite A. exact X.
    + destruct (K2 eq_refl) as [(A & B & _)|[(A & [(B & _)|(p & _ & _ & _ & B)])|(_ & [(A & B)|(A & aud & B)])]].
      * rewrite A, B. exact X.
      * destruct (tx (mx n')); [|contradiction]. rewrite B, create_out by exact T. eauto.
      * destruct (tx (mx n')); [|contradiction]. rewrite B, create_out by exact T. eauto.
      * rewrite A, B. exact X.
      * destruct (tx (mx n')); [|contradiction]. rewrite B, create_out by exact T. eauto.
Qed.
Lemma formed_arrive m n : formed n -> formed (snd (arrive m n)).
Proof. intros [S R X]. destruct (arrive_same m n) as (A & B & C & _). split; rewrite ?A, ?B, ?C; auto. Qed.
Lemma formed_happen subject e n t n' : subject_text subject -> formed n -> happen subject e n = Ok (t, n') -> formed n'.
Proof.
  intros T F H. pose proof (happen_cases _ _ _ _ _ H) as K. destruct e.
  - destruct K as [_ K]. eapply formed_call; eauto.
  - destruct K as [_ K]. eapply formed_call; eauto.
  - destruct K as [_ ->]. apply formed_arrive; auto.
Qed.
Lemma formed_history subject h n t n' : subject_text subject -> formed n -> history subject h n = Ok (t, n') -> formed n'.
Proof.
  intros T F H. eapply (history_inv subject (fun _ => True) formed (fun _ => True)) in H; eauto; try (apply Forall_forall; auto).
  - apply H.
  - intros e x t0 x' _ Fx Hx. split; auto. eapply formed_happen; eauto.
Qed.
Lemma leave_eq m n : formed n -> leave m n = [] \/ leave m n = [Sealed (o_uuid m); Sent (o_uuid m)].
Proof.
  intros [_ _ X]. unfold leave. destruct (tx (mx n)) as [[o []]|]; auto. destruct X as [w ->]. destruct w; cbn [out_list chain_of send_one snd]; auto.
  destruct (o_receiver m); cbn; auto.
Qed.

(** ** No handler of the node *)
Definition foreign (t : list effect) : Prop := forall h, ~ In (Ran h) t.
Lemma foreign_app a b : foreign a -> foreign b -> foreign (a ++ b).
Proof. intros A B h X. apply in_app_iff in X as [X|X]; [eapply A | eapply B]; eauto. Qed.
Lemma given_foreign m k : foreign (given m k).
Proof. intros h X. apply in_map_iff in X as (i & X & _). discriminate. Qed.
Lemma acks_foreign a m : foreign (acks a m).
Proof. intros h X. unfold acks in X. destruct (a && (i_wants_ack m && i_way_back m)); [destruct X as [X|[]]; discriminate | contradiction]. Qed.
Lemma arrive_cases m n : formed n -> fst (arrive m n) = [] \/
  exists o a w, rx (mx n) = Some (o, false) /\ rx_chain n = Some (in_list a w).
Proof.
  intros [_ R _]. destruct (rx (mx n)) as [[o b]|] eqn:E.
  - right. destruct R as (-> & a & w & R). exists o, a, w. auto.
  - left. unfold arrive. rewrite E. reflexivity.
Qed.
Lemma happen_foreign subject e n t n' : subject_text subject -> formed n -> happen subject e n = Ok (t, n') -> foreign t.
Proof.
  intros T F H. pose proof (formed_happen _ _ _ _ _ T F H) as F'. pose proof (happen_cases _ _ _ _ _ H) as K. destruct e.
  - destruct K as [-> _]. intros h X. contradiction.
  - destruct K as [[-> | ->] _]; [intros h X; contradiction|]. destruct (leave_eq m n' F') as [-> | ->]; intros h X; cbn in X; intuition discriminate.
  - destruct K as [-> _]. destruct (arrive_cases m n F) as [-> | (o & a & w & R & C)]; [intros h X; contradiction|].
    rewrite (arrive_eq m n o a w R C). destruct (_ && known m n); [intros h X; contradiction|].
    apply foreign_app; [apply acks_foreign|]. apply foreign_app; [destruct (w && i_opens m); intros h X; cbn in X; intuition discriminate|].
    destruct (_ && _); [apply given_foreign | intros h X; contradiction].
Qed.

(** ** Opened and sealed first *)
Lemma opened_app a b : opened_first a -> opened_first b -> opened_first (a ++ b).
Proof.
  intros A B x u i y E. apply app_eq_app in E as (l & [[-> E]|[-> E]]).
  - destruct l as [|c l]; cbn [app] in E.
    + exfalso. destruct (B [] u i y (eq_sym E)).
    + injection E as <- ->. eapply A. reflexivity.
  - apply in_app_iff. right. eapply B. exact E.
Qed.
Lemma sealed_app a b : sealed_first a -> sealed_first b -> sealed_first (a ++ b).
Proof.
  intros A B x u y E. apply app_eq_app in E as (l & [[-> E]|[-> E]]).
  - destruct l as [|c l]; cbn [app] in E.
    + exfalso. destruct (B [] u y (eq_sym E)).
    + injection E as <- ->. eapply A. reflexivity.
  - apply in_app_iff. right. eapply B. exact E.
Qed.

(** channels that were never virtual *)
Record open_channel (n : channel) : Prop := {
  v_formed : formed n;
  v_rx : forall o b, rx (mx n) = Some (o, b) -> c_aud_type (obj (mx n) o) <> 1 /\ exists a, rx_chain n = Some (in_list a true);
  v_tx : forall o b, tx (mx n) = Some (o, b) -> c_aud_type (obj (mx n) o) <> 1 }.
Lemma points_rx s o b : points s -> rx s = Some (o, b) -> (o < length (objs s))%nat. Proof. intros [P _] E. apply (P o b E). Qed.
Lemma points_tx s o b : points s -> tx s = Some (o, b) -> (o < length (objs s))%nat. Proof. intros [_ P] E. apply (P o b E). Qed.
Lemma kind_open c s s' : sound s -> kind c s s' -> (forall p, c = Set_ p -> ~ virtual p) ->
  (forall o b, rx s = Some (o, b) -> c_aud_type (obj s o) <> 1) -> (forall o b, tx s = Some (o, b) -> c_aud_type (obj s o) <> 1) ->
  (forall o b, rx s' = Some (o, b) -> c_aud_type (obj s' o) <> 1) /\ (forall o b, tx s' = Some (o, b) -> c_aud_type (obj s' o) <> 1).
Proof.
  intros [P _] K V A B. destruct K as [R G1 G2 L O _ _ _ | s1 o P1 L1 R1 T1 _ L2 O1 C R T O _].
  - split.
    + intros o b E. rewrite R in E. rewrite O by (eapply points_rx; eauto). eauto.
    + intros o b E. destruct (G2 o b E) as [b' E']. rewrite O by (eapply points_tx; eauto). eauto.
  - destruct (register_keys o s1) as (A' & B' & _ & D & F & G).
    assert (Eo : forall q, obj s' q = obj (register o s1) q) by (intros q; unfold obj; rewrite O; reflexivity).
    assert (N : c_aud_type (obj s1 o) <> 1).
    { destruct c as [p| | | |]; try contradiction.
      - destruct C as (_ & C & _). rewrite C. apply (V p). reflexivity.
      - apply C.
      - destruct (rx s) as [[q b]|] eqn:Q.
        + subst q. rewrite O1; [eapply A; eauto | eapply points_rx; eauto | right; discriminate].
        + rewrite (proj1 C). discriminate. }
    assert (M : forall q, (q = o \/ (q < length (objs s))%nat /\ c_aud_type (obj s q) <> 1) -> c_aud_type (obj s' q) <> 1).
    { intros q Q. rewrite Eo. destruct (F q) as [X|X]; rewrite X; auto. destruct Q as [->|[Q1 Q2]]; auto.
      destruct (Nat.eq_dec q o) as [->|Nq]; auto. rewrite O1; auto. }
    split; intros q b E; apply M.
    + rewrite R, A', R1 in E. unfold first_of in E. destruct (flag_cmp (c_mode (obj s1 o)) 1); [destruct (rx s) as [[r d]|] eqn:Q|].
      * injection E as <- <-. right. split; [eapply points_rx; eauto | eauto].
      * injection E as <- _. auto.
      * right. split; [eapply points_rx; eauto | eauto].
    + rewrite T, B', T1 in E. unfold first_of in E. destruct (flag_cmp (c_mode (obj s1 o)) 2); [destruct (tx s) as [[r d]|] eqn:Q|].
      * injection E as <- <-. right. split; [eapply points_tx; eauto | eauto].
      * injection E as <- _. auto.
      * right. split; [eapply points_tx; eauto | eauto].
Qed.
Lemma open_start : open_channel start.
Proof. split; [exact formed_start | |]; cbn; intros; discriminate. Qed.
Lemma open_call subject c n n' : subject_text subject -> (forall p, c = Set_ p -> ~ virtual p) -> open_channel n -> do_call subject c n = Ok n' ->
  open_channel n'.
Proof.
  intros T V [F R X] H. pose proof (formed_call _ _ _ _ T F H) as F'.
  destruct (rx_step subject c n n' (f_sound _ F) H) as (S' & _ & K0 & K).
  destruct (kind_open c _ _ (f_sound _ F) K0 V) as [K1 K2]; [intros o b E; apply (R o b E) | exact X |].
  split; auto. intros o b E. split; [eauto|]. destruct K as [(A & B & _)|(A & q & B & [(_ & C)|(p & -> & _ & _ & C)])].
  - rewrite A in E. rewrite B. apply (R o b E).
  - rewrite C, create_in by exact T. eexists. reflexivity.
  - rewrite C, create_in by exact T. destruct (Z.eqb_spec (p_aud_type p) 1) as [Y|Y]; [exfalso; apply (V p eq_refl Y)|]. eexists. reflexivity.
Qed.
Definition not_virtual (e : event) : Prop := match e with Call (Set_ p) => ~ virtual p | _ => True end.
Lemma open_happen subject e n t n' : subject_text subject -> not_virtual e -> open_channel n -> happen subject e n = Ok (t, n') -> open_channel n'.
Proof.
  intros T V O H. pose proof (happen_cases _ _ _ _ _ H) as K. destruct e.
  - destruct K as [_ K]. eapply open_call; eauto. intros p ->. exact V.
  - destruct K as [_ K]. eapply open_call; eauto. discriminate.
  - destruct K as [_ ->]. destruct O as [F R X]. destruct (arrive_same m n) as (A & B & C & _).
    split; [apply formed_arrive; auto | rewrite A, B; exact R | rewrite A; exact X].
Qed.
Lemma not_given a m : forall u i, ~ In (Given u i) (acks a m).
Proof. intros u i X. unfold acks in X. destruct (a && _); [destruct X as [X|[]]; discriminate | contradiction]. Qed.
Lemma opened_arrive m n : open_channel n -> opened_first (fst (arrive m n)).
Proof.
  intros [F R _]. destruct (arrive_cases m n F) as [-> | (o & a & w & E & C)].
  - intros x u i y X. destruct x; discriminate.
  - destruct (R _ _ E) as [V [a' C']]. assert (W : w = true).
    { rewrite C in C'. injection C' as C'. destruct a, w, a'; try reflexivity; discriminate. }
    subst w. rewrite (arrive_eq m n o a true E C). destruct (_ && known m n).
    { intros x u i y X. destruct x; discriminate. }
    cbn [andb negb orb]. destruct (i_opens m); cbn [andb app].
    + intros x u i y X. assert (U : u = i_uuid m).
      { assert (Y : In (Given u i) (acks a m ++ [Opened (i_uuid m)] ++ (if negb (c_aud_type (obj (mx n) o) =? 1) then given m (listeners (mx n)) else []))).
        { cbn [app]. rewrite X. apply in_app_iff. right. left. reflexivity. }
        apply in_app_iff in Y as [Y|[Y|Y]]; [exfalso; eapply not_given; eauto | discriminate|].
        destruct (negb _); [|contradiction]. apply in_map_iff in Y as (j & Y & _). congruence. }
      subst u. apply app_eq_app in X as (l & [[X1 X2]|[X1 X2]]).
      * destruct l as [|e l]; cbn [app] in X2; [discriminate|]. injection X2 as <- _. exfalso. apply (not_given a m (i_uuid m) i). rewrite X1.
        apply in_app_iff. right. left. reflexivity.
      * destruct l as [|e l]; cbn [app] in X2; [discriminate|]. injection X2 as <- _. rewrite X1. apply in_app_iff. right. left. reflexivity.
    + rewrite app_nil_r. intros x u i y X. exfalso. apply (not_given a m u i). rewrite X. apply in_app_iff. right. left. reflexivity.
Qed.
Lemma opened_happen subject e n t n' : not_virtual e -> open_channel n -> subject_text subject -> happen subject e n = Ok (t, n') -> opened_first t.
Proof.
  intros V O T H. pose proof (open_happen _ _ _ _ _ T V O H) as O'. pose proof (happen_cases _ _ _ _ _ H) as K. destruct e.
  - destruct K as [-> _]. intros x u i y X. destruct x; discriminate.
  - destruct K as [[-> | ->] _]; [intros x u i y X; destruct x; discriminate|].
    destruct (leave_eq m n' (v_formed _ O')) as [-> | ->]; intros x u i y X; repeat (destruct x as [|? x]; try discriminate X; injection X as _ X).
  - destruct K as [-> _]. apply opened_arrive; auto.
Qed.
Lemma sealed_happen subject e n t n' : subject_text subject -> formed n -> happen subject e n = Ok (t, n') -> sealed_first t.
Proof.
  intros T F H. pose proof (formed_happen _ _ _ _ _ T F H) as F'. pose proof (happen_cases _ _ _ _ _ H) as K. destruct e.
  - destruct K as [-> _]. intros x u y X. destruct x; discriminate.
  - destruct K as [[-> | ->] _]; [intros x u y X; destruct x; discriminate|].
    destruct (leave_eq m n' F') as [-> | ->]; intros x u y X; [destruct x; discriminate|].
    destruct x as [|? x]; [discriminate X|]. injection X as <- X. destruct x as [|? x]; [injection X as <- _; left; reflexivity|].
    injection X as _ X. destruct x; discriminate.
  - destruct K as [-> _]. intros x u y X. exfalso.
    assert (N : ~ In (Sent u) (fst (arrive m n))).
    { destruct (arrive_cases m n F) as [-> | (o & a & w & R & C)]; [intros []|]. rewrite (arrive_eq m n o a w R C).
      destruct (_ && known m n); [intros []|]. unfold acks. intros Y. apply in_app_iff in Y as [Y|Y].
      - destruct (a && _); [destruct Y as [Y|[]]; discriminate | contradiction].
      - apply in_app_iff in Y as [Y|Y].
        + destruct (w && _); [destruct Y as [Y|[]]; discriminate | contradiction].
        + destruct (_ && _); [|contradiction]. apply in_map_iff in Y as (j & Y & _). discriminate. }
    apply N. rewrite X. apply in_app_iff. right. left. reflexivity.
Qed.

(** ** The list of the receiving side is made once *)
Definition fixed_rx (hs : list handler) (n : channel) : Prop := sound (mx n) /\ rx (mx n) <> None /\ rx_chain n = Some hs.
Lemma fixed_happen subject hs e n t n' : fixed_rx hs n -> happen subject e n = Ok (t, n') -> fixed_rx hs n'.
Proof.
  intros (S & R & C) H. pose proof (happen_cases _ _ _ _ _ H) as K.
  assert (D : forall c, do_call subject c n = Ok n' -> fixed_rx hs n').
  { intros c X. destruct (rx_step subject c n n' S X) as (S' & _ & _ & [(A & B & _)|(A & _)]); [|contradiction].
    split; [exact S'|]. rewrite A, B. auto. }
  destruct e.
  - eapply D. apply K.
  - eapply D. apply K.
  - destruct K as [_ ->]. destruct (arrive_same m n) as (A & B & _). unfold fixed_rx. rewrite A, B. auto.
Qed.
Lemma fixed_history subject hs h n t n' : fixed_rx hs n -> history subject h n = Ok (t, n') -> fixed_rx hs n'.
Proof.
  intros F H. eapply (history_inv subject (fun _ => True) (fixed_rx hs) (fun _ => True)) in H; eauto; try (apply Forall_forall; auto).
  - apply H.
  - intros e x t0 x' _ Fx Hx. split; auto. eapply fixed_happen; eauto.
Qed.
(** before the first settings and callback there is no receiving side *)
Definition no_rx (n : channel) : Prop := sound (mx n) /\ rx (mx n) = None /\ rx_chain n = None.
Lemma no_rx_happen subject e n t n' : unconcerned e -> no_rx n -> happen subject e n = Ok (t, n') -> no_rx n'.
Proof.
  intros U (S & R & C) H. pose proof (happen_cases _ _ _ _ _ H) as K.
  assert (D : forall c, match c with Set_ _ | Listen => False | _ => True end -> do_call subject c n = Ok n' -> no_rx n').
  { intros c N X. destruct (rx_step subject c n n' S X) as (S' & _ & _ & [(A & B & _)|(A & o & B & [(-> & _)|(p & -> & _)])]); try contradiction.
    split; [exact S'|]. rewrite A, B. auto. }
  destruct e.
  - eapply D; [|apply K]. destruct c; auto.
  - eapply (D Send); [exact I|apply K].
  - destruct K as [_ ->]. destruct (arrive_same m n) as (A & B & _). unfold no_rx. rewrite A, B. auto.
Qed.
Lemma no_rx_history subject h t n' : Forall unconcerned h -> history subject h start = Ok (t, n') -> no_rx n'.
Proof.
  intros F H. eapply (history_inv subject unconcerned no_rx (fun _ => True)) in H; eauto.
  - apply H.
  - intros e x t0 x' U Fx Hx. split; auto. eapply no_rx_happen; eauto.
  - split; [exact sound_init | split; reflexivity].
Qed.
Lemma flag_ack (a : Z) : flag_cmp (if a =? 1 then 2 else if a =? 2 then 4 else 1) 2 = (a =? 1).
Proof. destruct (a =? 1); [reflexivity|]. destruct (a =? 2); reflexivity. Qed.
Lemma set_first subject h0 p h1 t n : subject_text subject -> Forall unconcerned h0 -> accepted p -> receives p ->
  history subject (h0 ++ Call (Set_ p) :: h1) start = Ok (t, n) ->
  fixed_rx (in_list (p_ack p =? 1) (negb (p_aud_type p =? 1))) n.
Proof.
  intros T U A R H. rewrite history_app in H. destruct (history subject h0 start) as [[x n0]| |] eqn:H0; cbn [obind] in H; try discriminate.
  destruct (no_rx_history subject h0 x n0 U H0) as (S & N & C). cbn [history] in H.
  destruct (happen subject (Call (Set_ p)) n0) as [[y n1]| |] eqn:H1; cbn [obind] in H; try discriminate.
  destruct (history subject h1 n1) as [[z n2]| |] eqn:H2; cbn [obind] in H; try discriminate. injection H as _ <-.
  eapply fixed_history; [|exact H2]. destruct (happen_cases _ _ _ _ _ H1) as [_ D].
  destruct (rx_step subject (Set_ p) n0 n1 S D) as (S' & _ & _ & [(X & Y & Z0)|(X & o & Y & [(W & _)|(q & W & _ & _ & Q)])]).
  - exfalso. destruct (Z0 N) as [_ Z1]. apply (Z1 p eq_refl A R).
  - discriminate.
  - injection W as <-. split; [exact S'|]. split; [congruence|]. rewrite Q, create_in, flag_ack by exact T. reflexivity.
Qed.
Lemma listen_first subject h0 h1 t n : subject_text subject -> Forall no_settings h0 ->
  history subject (h0 ++ Call Listen :: h1) start = Ok (t, n) ->
  (forall u, ~ In (Acked u) t) /\ fixed_rx (in_list false true) n.
Proof.
  intros T U H. rewrite history_app in H. destruct (history subject h0 start) as [[x n0]| |] eqn:H0; cbn [obind] in H; try discriminate.
  assert (E : (forall u, ~ In (Acked u) []) /\ (forall a b, (forall u, ~ In (Acked u) a) -> (forall u, ~ In (Acked u) b) -> forall u, ~ In (Acked u) (a ++ b))).
  { split; [auto|]. intros a b A B u X. apply in_app_iff in X as [X|X]; [eapply A | eapply B]; eauto. }
  set (P := fun n => formed n /\ (no_rx n \/ fixed_rx (in_list false true) n)).
  assert (A : forall n m, P n -> forall u, ~ In (Acked u) (fst (arrive m n))).
  { intros k m [F [(_ & N & _)|(_ & N & C)]] u.
    - unfold arrive. rewrite N. auto.
    - destruct (arrive_cases m k F) as [-> | (o & a & w & R & C')]; [auto|]. rewrite (arrive_eq m k o false true R C).
      destruct (_ && known m k); [auto|]. unfold acks. cbn [andb app]. intros Y. apply in_app_iff in Y as [Y|Y].
      + destruct (i_opens m); [destruct Y as [Y|[]]; discriminate | contradiction].
      + destruct (_ && _); [|contradiction]. apply in_map_iff in Y as (j & Y & _). discriminate. }
  assert (L : forall k m, formed k -> forall u, ~ In (Acked u) (leave m k)).
  { intros k m F u. destruct (leave_eq m k F) as [-> | ->]; cbn; intuition discriminate. }
  assert (G : forall e k s k', no_settings e -> P k -> happen subject e k = Ok (s, k') -> P k' /\ forall u, ~ In (Acked u) s).
  { intros e k s k' Ne Pk Hk. pose proof Pk as [F Q]. pose proof (formed_happen _ _ _ _ _ T F Hk) as F'. pose proof (happen_cases _ _ _ _ _ Hk) as K.
    assert (Q' : no_rx k' \/ fixed_rx (in_list false true) k').
    { destruct Q as [Q|Q]; [|right; eapply fixed_happen; eauto].
      assert (D : unconcerned e \/ e = Call Listen) by (destruct e as [[]| |]; cbn in *; auto; contradiction).
      destruct D as [D| ->]; [left; eapply no_rx_happen; eauto|]. destruct K as [_ K]. destruct Q as (S & N & C).
      destruct (rx_step subject Listen k k' S K) as (S' & _ & _ & [(X & Y & Z0)|(X & o & Y & [(_ & W)|(q & W & _)])]).
      - exfalso. apply (proj1 (Z0 N)). reflexivity.
      - right. split; [exact S'|]. split; [congruence|]. rewrite W, create_in by exact T. reflexivity.
      - discriminate. }
    split; [split; auto|]. destruct e.
    - destruct K as [-> _]. auto.
    - destruct K as [[-> | ->] _]; [auto|]. apply L; auto.
    - destruct K as [-> _]. apply A. exact Pk. }
  assert (P0 : P start) by (split; [exact formed_start | left; split; [exact sound_init | split; reflexivity]]).
  destruct (history_inv subject no_settings P (fun s => forall u, ~ In (Acked u) s) (proj1 E) (proj2 E) G h0 start x n0 U P0 H0) as [P1 E1].
  cbn [history] in H. destruct (happen subject (Call Listen) n0) as [[y n1]| |] eqn:H1; cbn [obind] in H; try discriminate.
  destruct (history subject h1 n1) as [[z n2]| |] eqn:H2; cbn [obind] in H; try discriminate. injection H as <- <-.
  destruct (G (Call Listen) n0 y n1 I P1 H1) as [P2 E2].
  assert (F2 : fixed_rx (in_list false true) n1).
  { destruct P2 as [_ [(S2 & N2 & _)|P2]]; auto. exfalso. destruct P1 as [F1 _]. destruct (happen_cases _ _ _ _ _ H1) as [_ K].
    destruct (rx_step subject Listen n0 n1 (f_sound _ F1) K) as (S' & _ & _ & [(X & Y & Z0)|(X & o & Y & _)]); [|congruence].
    rewrite N2 in X. destruct (Z0 (eq_sym X)) as [Z1 _]. apply Z1. reflexivity. }
  assert (G' : forall e k s k', True -> (formed k /\ fixed_rx (in_list false true) k) -> happen subject e k = Ok (s, k') ->
     (formed k' /\ fixed_rx (in_list false true) k') /\ forall u, ~ In (Acked u) s).
  { intros e k s k' _ [Fk Qk] Hk. pose proof (formed_happen _ _ _ _ _ T Fk Hk) as F'. pose proof (happen_cases _ _ _ _ _ Hk) as K.
    split; [split; [auto | eapply fixed_happen; eauto]|]. destruct e.
    - destruct K as [-> _]. auto.
    - destruct K as [[-> | ->] _]; [auto|]. apply L; auto.
    - destruct K as [-> _]. apply A. split; auto. }
  destruct (history_inv subject (fun _ => True) _ (fun s => forall u, ~ In (Acked u) s) (proj1 E) (proj2 E) G' h1 n1 z n2) as [[_ P3] E3];
    [apply Forall_forall; auto | split; [apply P2 | exact F2] | exact H2 |].
  split; [|exact P3]. apply (proj2 E); [exact E1|]. apply (proj2 E); [exact E2 | exact E3].
Qed.

(** what was seen came in *)
Lemma seen_history subject h : forall n t n', history subject h n = Ok (t, n') -> forall u, In u (seen n') -> In u (seen n) \/ came u h.
Proof.
  induction h as [|e h IH]; intros n t n' H u X; cbn [history] in H; [injection H as _ <-; auto|].
  destruct (happen subject e n) as [[x n1]| |] eqn:E; cbn [obind] in H; try discriminate.
  destruct (history subject h n1) as [[y n2]| |] eqn:Y; cbn [obind] in H; try discriminate. injection H as _ <-.
  destruct (IH _ _ _ Y u X) as [Z|(m & Z1 & Z2)]; [|right; exists m; split; [right; exact Z1 | exact Z2]].
  pose proof (happen_cases _ _ _ _ _ E) as K. assert (D : forall c, do_call subject c n = Ok n1 -> seen n1 = seen n).
  { intros c Q. unfold do_call in Q. destruct (step c (mx n)); cbn [obind] in Q; try discriminate. injection Q as <-. reflexivity. }
  destruct e.
  - rewrite (D c) in Z by apply K. auto.
  - rewrite (D Send) in Z by apply K. auto.
  - destruct K as [_ ->]. destruct (arrive_same m n) as (_ & _ & _ & W). destruct (W u Z) as [V|V]; auto. right. exists m. split; [left; reflexivity | auto].
Qed.
Lemma not_known subject h t n m : history subject h start = Ok (t, n) -> ~ came (i_uuid m) h -> known m n = false.
Proof.
  intros H N. unfold known. destruct (existsb (Z.eqb (i_uuid m)) (seen n)) eqn:E; auto. exfalso. apply existsb_exists in E as (u & X & Y).
  apply Z.eqb_eq in Y. subst u. destruct (seen_history _ _ _ _ _ H _ X) as [[]|Z]. auto.
Qed.
Lemma set_unique subject p n n' : formed n -> accepted p -> receives p -> do_call subject (Set_ p) n = Ok n' ->
  exists o, rx (mx n') = Some (o, false) /\ c_unique (obj (mx n') o) = true.
Proof.
  intros [S Rx _] A R H. pose proof H as H'. unfold do_call in H. destruct (step (Set_ p) (mx n)) as [s'| |] eqn:E; cbn [obind] in H; try discriminate.
  injection H as <-. cbn [mx]. pose proof (step_kind _ _ _ (s_points _ S) E) as K.
  destruct K as [_ _ _ _ _ _ _ NA | s1 o P1 L1 R1 T1 _ L2 O1 C R' T' O _]; [exfalso; eapply NA; eauto|].
  destruct (register_keys o s1) as (A' & _ & _ & _ & _ & G). destruct C as (_ & C2 & C3 & C4 & C5 & C6).
  exists o. split; [|unfold obj; rewrite O; change (c_unique (obj (register o s1) o) = true); rewrite G; exact C3].
  rewrite R', A', R1. unfold first_of. destruct (rx (mx n)) as [[q b]|].
  - destruct Rx as [-> _]. subst q. destruct (flag_cmp _ 1); reflexivity.
  - rewrite C5. unfold receives in R. destruct (p_role p =? 1); [reflexivity|]. destruct (Z.eqb_spec (p_role p) 0); [contradiction | reflexivity].
Qed.

(** ** The list of the sending side is made once *)
Definition fixed_tx (hs : list handler) (n : channel) : Prop := sound (mx n) /\ tx (mx n) <> None /\ tx_chain n = Some hs.
Lemma fixed_tx_call subject hs c n n' : fixed_tx hs n -> do_call subject c n = Ok n' -> fixed_tx hs n'.
Proof.
  intros (S & N & C) H. destruct (rx_step subject c n n' S H) as (S' & _). destruct (tx_step subject c n n' S H) as [K _].
  destruct (K N) as [K1 K2]. split; [exact S' | split; [exact K2 | congruence]].
Qed.
Definition silent (t : list effect) : Prop := forall u, ~ In (Sent u) t /\ ~ In (Sealed u) t.
Lemma silent_arrive m n : formed n -> silent (fst (arrive m n)).
Proof.
  intros F u. assert (N : forall e, In e (fst (arrive m n)) -> match e with Sent _ | Sealed _ => False | _ => True end).
  { intros e. destruct (arrive_cases m n F) as [-> | (o & a & w & R & C)]; [intros []|]. rewrite (arrive_eq m n o a w R C).
    destruct (_ && known m n); [intros []|]. unfold acks. intros Y. apply in_app_iff in Y as [Y|Y].
    - destruct (a && _); [destruct Y as [Y|[]]; subst; exact I | contradiction].
    - apply in_app_iff in Y as [Y|Y].
      + destruct (w && _); [destruct Y as [Y|[]]; subst; exact I | contradiction].
      + destruct (_ && _); [|contradiction]. apply in_map_iff in Y as (j & Y & _). subst. exact I. }
  split; intros X; apply (N _ X).
Qed.
Lemma mute subject p h t n : subject_text subject -> virtual p -> sends p ->
  history subject (Call (Set_ p) :: h) start = Ok (t, n) -> silent t /\ fixed_tx [] n.
Proof.
  intros T V Sd H. cbn [history] in H. destruct (happen subject (Call (Set_ p)) start) as [[y n1]| |] eqn:H1; cbn [obind] in H; try discriminate.
  destruct (history subject h n1) as [[z n2]| |] eqn:H2; cbn [obind] in H; try discriminate. injection H as <- <-.
  pose proof (formed_happen _ _ _ _ _ T formed_start H1) as F1. destruct (happen_cases _ _ _ _ _ H1) as [-> D].
  assert (A : accepted p) by (intros [X _]; unfold virtual in V; congruence).
  assert (F2 : fixed_tx [] n1).
  { split; [apply F1|]. destruct (tx_step subject (Set_ p) start n1 sound_init D) as [_ K].
    destruct (K eq_refl) as [(_ & _ & X)|[(X & [(_ & Y)|(q & Y & _ & _ & W)])|(X & _)]].
    - exfalso. apply (X p eq_refl A Sd).
    - exfalso. apply (Y p eq_refl V).
    - injection Y as <-. split; [exact X|]. rewrite W, create_out by exact T. unfold virtual in V. rewrite V. reflexivity.
    - discriminate. }
  cbn [app]. assert (S0 : silent []) by (intros u; split; intros []).
  assert (Sa : forall a b, silent a -> silent b -> silent (a ++ b)).
  { intros a b A1 B1 u. destruct (A1 u), (B1 u). split; intros X; apply in_app_iff in X; tauto. }
  assert (G : forall e k s k', True -> (formed k /\ fixed_tx [] k) -> happen subject e k = Ok (s, k') -> (formed k' /\ fixed_tx [] k') /\ silent s).
  { intros e k s k' _ [Fk Qk] Hk. pose proof (formed_happen _ _ _ _ _ T Fk Hk) as F'. pose proof (happen_cases _ _ _ _ _ Hk) as K. destruct e.
    - destruct K as [-> K]. split; [split; [auto | eapply fixed_tx_call; eauto] | exact S0].
    - destruct K as [K0 K]. pose proof (fixed_tx_call _ _ _ _ _ Qk K) as Q'. split; [split; auto|]. destruct K0 as [-> | ->]; [exact S0|].
      unfold leave. destruct Q' as (_ & _ & ->). destruct (tx (mx k')) as [[o []]|]; exact S0.
    - destruct K as [-> ->]. destruct (arrive_same m k) as (X1 & X2 & X3 & _). split; [split; [auto|]|apply silent_arrive; auto].
      unfold fixed_tx. rewrite X1, X3. exact Qk. }
  destruct (history_inv subject (fun _ => True) _ silent S0 Sa G h n1 z n2) as [[_ B] C]; auto. apply Forall_forall; auto.
Qed.
