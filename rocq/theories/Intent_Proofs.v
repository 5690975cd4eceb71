From Verif Require Import Base Intent_Model Intent_Spec.

(** projections of the setters *)
Ltac proj := cbn [objs peers own cur mep sess ask back outbox sent accepted set_objs set_peers set_own set_cur set_mep set_sess set_ask
  set_back set_outbox set_sent set_accepted] in *.

Lemma tk_objs s s' : objs s = objs s' -> forall o, tk s o = tk s' o /\ auth s o = auth s' o /\ ob s o = ob s' o.
Proof. intros E o. unfold tk, auth, ob. rewrite E. auto. Qed.

Lemma find_in i l v : find i l = Some v -> In (i, v) l.
Proof.
  induction l as [|[j w] l IH]; cbn [find]; [discriminate|]. destruct (j =? i) eqn:E.
  - intros [= ->]. apply Z.eqb_eq in E. subst. left; auto.
  - intros H. right. auto.
Qed.
Lemma in_del x i l : In x (del i l) -> In x l.
Proof. unfold del. intros H. apply filter_In in H. tauto. Qed.
Lemma find_del i j l : find i (del j l) = if i =? j then None else find i l.
Proof.
  induction l as [|[k v] l IH]; cbn [del filter find fst]; [destruct (i =? j); auto|].
  unfold del in IH. destruct (k =? j) eqn:A; cbn [negb find].
  - rewrite IH. apply Z.eqb_eq in A. subst k. rewrite (Z.eqb_sym j i). destruct (i =? j); auto.
  - rewrite IH. destruct (k =? i) eqn:B; auto. apply Z.eqb_eq in B. subst k. rewrite A. auto.
Qed.
Lemma find_put i j v l : find i (put j v l) = if i =? j then Some v else find i l.
Proof. unfold put. cbn [find]. rewrite (Z.eqb_sym j i). destruct (i =? j) eqn:E; auto. rewrite find_del, E. auto. Qed.

Lemma bit_off x m k : 0 <= k -> Z.testbit x k = false -> flag_cmp (Z.land x m) (2 ^ k) = false.
Proof.
  intros K H. unfold flag_cmp. apply Z.eqb_neq. intros E. apply (f_equal (fun z => Z.testbit z k)) in E.
  rewrite !Z.land_spec, H, Z.pow2_bits_true in E by lia. discriminate.
Qed.
Lemma exact_kx a b : intent_cmp_exact a b = true -> t_kx a = t_kx b /\ t_uuid a = t_uuid b.
Proof. unfold intent_cmp_exact. intros H. lia. Qed.

Lemma replace_spec cmp s o l x l' : replace cmp s o l = Some (x, l') ->
  In x l /\ (x = o \/ cmp (tk s x) (tk s o) = true) /\ exists a b, l = a ++ x :: b /\ l' = a ++ o :: b /\ Forall (fun y => y <> o /\ cmp (tk s y) (tk s o) = false) a.
Proof.
  revert x l'. induction l as [|y l IH]; cbn [replace]; intros x l'; [discriminate|].
  destruct ((y =? o)%nat || cmp (tk s y) (tk s o)) eqn:E.
  - intros [= <- <-]. split; [left; auto|]. split; [apply orb_true_iff in E; destruct E as [E|E]; [left; apply Nat.eqb_eq; auto|right; auto]|].
    exists [], l. repeat split; auto.
  - destruct (replace cmp s o l) as [[z r]|]; [|discriminate]. intros [= <- <-]. destruct (IH _ _ eq_refl) as (I & C & a & b & -> & -> & F).
    split; [right; auto|]. split; auto. exists (y :: a), b. repeat split; auto. constructor; auto. apply orb_false_iff in E. destruct E. split; auto. apply Nat.eqb_neq; auto.
Qed.
Lemma replace_none cmp s o l : replace cmp s o l = None -> Forall (fun y => y <> o /\ cmp (tk s y) (tk s o) = false) l.
Proof.
  induction l as [|y l IH]; cbn [replace]; [constructor|]. destruct ((y =? o)%nat || cmp (tk s y) (tk s o)) eqn:E; [discriminate|].
  destruct (replace cmp s o l) as [[z r]|]; [discriminate|]. intros _. constructor; auto. apply orb_false_iff in E. destruct E. split; auto. apply Nat.eqb_neq; auto.
Qed.
Lemma Forall_insert (P : nat -> Prop) n o l : Forall P l -> P o -> Forall P (insert_at n o l).
Proof.
  intros F H. unfold insert_at. apply Forall_app. rewrite <- (firstn_skipn n l) in F. apply Forall_app in F. destruct F. split; auto.
Qed.
Lemma Forall_remove (P : nat -> Prop) s o l : Forall P l -> Forall P (remove s o l).
Proof. induction 1 as [|x l H F IH]; cbn [remove]; [constructor|]. destruct (_ || _); auto. Qed.

Section History.
Variable c : conf.

(** monotone in the history *)
Lemma admitted_app h x t : admitted c h t -> admitted c (h ++ x) t.
Proof. intros (e & I & R). exists e. split; auto. apply in_or_app; auto. Qed.
Lemma accepted_app h x k : key_accepted c h k -> key_accepted c (h ++ x) k.
Proof. intros (t & e & K & A & I & R). exists t, e. split; auto. split; [apply admitted_app; auto|]. split; auto. apply in_or_app; auto. Qed.

Definition good h (x : secret) : Prop := forall k, rooted x k -> key_accepted c h k.
Definition good_ses h (x : session) : Prop :=
  good h (s_read x) /\ good h (s_write x) /\ (s_type x = SInitial -> exists k, s_read x = Kx k).
Lemma good_app h x y : good h y -> good (h ++ x) y.
Proof. intros G k R. apply accepted_app. auto. Qed.
Lemma good_ses_app h x y : good_ses h y -> good_ses (h ++ x) y.
Proof. intros (A & B & C). split; [|split]; auto using good_app. Qed.

Definition foreign (s : st) (o : nat) : Prop := (o < length (objs s))%nat /\ o_mine (ob s o) = false.
Record Inv (h : list (env * ev)) (s : st) : Prop := {
  i_auth : forall o, foreign s o -> auth s o = true -> key_accepted c h (t_kx (tk s o));
  i_peers : Forall (foreign s) (peers s);
  i_ask : Forall (fun o => foreign s o /\ admitted c h (tk s o)) (ask s);
  i_back : Forall (fun o => foreign s o /\ admitted c h (tk s o)) (back s);
  i_sess : Forall (fun x => good_ses h (snd x)) (sess s);
  i_sent : Forall (good h) (sent s);
  i_sev : forall o, foreign s o -> several (t_mep (tk s o));
  i_mep : several (mep s) }.

Lemma Inv_app h x s : Inv h s -> Inv (h ++ x) s.
Proof.
  intros []. constructor; auto.
  - intros. apply accepted_app. auto.
  - eapply Forall_impl; [|exact i_ask0]. intros a []; split; auto using admitted_app.
  - eapply Forall_impl; [|exact i_back0]. intros a []; split; auto using admitted_app.
  - eapply Forall_impl; [|exact i_sess0]. intros a. apply good_ses_app.
  - eapply Forall_impl; [|exact i_sent0]. intros a. apply good_app.
Qed.

(** same objects, other parts given *)
Lemma Inv_same h s s' : Inv h s -> objs s' = objs s ->
  Forall (foreign s) (peers s') -> Forall (fun o => foreign s o /\ admitted c h (tk s o)) (ask s') ->
  Forall (fun o => foreign s o /\ admitted c h (tk s o)) (back s') -> Forall (fun x => good_ses h (snd x)) (sess s') ->
  Forall (good h) (sent s') -> several (mep s') -> Inv h s'.
Proof.
  intros [] E P A B Se Sn Sm. pose proof (tk_objs s' s E) as T.
  assert (F : forall o, foreign s o -> foreign s' o). { intros o [L M]. split; [rewrite E; auto|]. destruct (T o) as (_ & _ & ->); auto. }
  assert (F2 : forall o, foreign s' o -> foreign s o). { intros o [L M]. rewrite E in L. split; auto. destruct (T o) as (_ & _ & <-); auto. }
  constructor; auto.
  - intros o Fo Au. destruct (T o) as (-> & Ea & _). rewrite Ea in Au. auto.
  - eapply Forall_impl; [|exact P]. auto.
  - eapply Forall_impl; [|exact A]. intros o [X Y]. destruct (T o) as (-> & _ & _). auto.
  - eapply Forall_impl; [|exact B]. intros o [X Y]. destruct (T o) as (-> & _ & _). auto.
  - intros o Fo. destruct (T o) as (-> & _ & _). auto.
Qed.

Lemma set_auth_facts s o b : (o < length (objs s))%nat ->
  (forall x, tk (set_auth o b s) x = tk s x) /\ (forall x, o_mine (ob (set_auth o b s) x) = o_mine (ob s x)) /\
  auth (set_auth o b s) o = b /\ (forall x, x <> o -> auth (set_auth o b s) x = auth s x) /\
  length (objs (set_auth o b s)) = length (objs s).
Proof.
  intros L. unfold set_auth, tk, auth, ob. proj.
  assert (D : forall x, nth x (upd (objs s) o {| o_tok := o_tok (nth o (objs s) (mkObj no_tok false false)); o_auth := b; o_mine := o_mine (nth o (objs s) (mkObj no_tok false false)) |}) (mkObj no_tok false false)
     = if (x =? o)%nat then {| o_tok := o_tok (nth o (objs s) (mkObj no_tok false false)); o_auth := b; o_mine := o_mine (nth o (objs s) (mkObj no_tok false false)) |} else nth x (objs s) (mkObj no_tok false false)).
  { intros x. destruct (Nat.eqb_spec x o) as [->|N]; [apply upd_nth_eq; auto|apply upd_nth_neq; auto]. }
  repeat split.
  - intros x. rewrite D. destruct (Nat.eqb_spec x o) as [->|N]; auto.
  - intros x. rewrite D. destruct (Nat.eqb_spec x o) as [->|N]; auto.
  - rewrite D, Nat.eqb_refl. auto.
  - intros x N. rewrite D. destruct (Nat.eqb_spec x o) as [->|N']; auto. congruence.
  - apply upd_length.
Qed.
Lemma Inv_set_auth h s o b : Inv h s -> (o < length (objs s))%nat -> (b = true -> key_accepted c h (t_kx (tk s o))) -> Inv h (set_auth o b s).
Proof.
  intros Iv L K. destruct (set_auth_facts s o b L) as (T & M & A & A' & Le). destruct Iv.
  assert (F : forall x, foreign s x <-> foreign (set_auth o b s) x). { intros x. unfold foreign. rewrite Le, M. tauto. }
  constructor; auto.
  - intros x Fx Ax. rewrite T. destruct (Nat.eq_dec x o) as [->|N]; [apply K; congruence|]. rewrite (A' _ N) in Ax. apply i_auth0; auto. apply F; auto.
  - unfold set_auth. proj. eapply Forall_impl; [|exact i_peers0]. intros x. apply F.
  - unfold set_auth at 2. proj. eapply Forall_impl; [|exact i_ask0]. intros x [X Y]. rewrite T. split; auto. apply F; auto.
  - unfold set_auth at 2. proj. eapply Forall_impl; [|exact i_back0]. intros x [X Y]. rewrite T. split; auto. apply F; auto.
  - intros x Fx. rewrite T. apply i_sev0. apply F; auto.
Qed.

Lemma good_kx h k : key_accepted c h k -> good h (Kx k).
Proof. intros K j R. cbn in R. subst; auto. Qed.
Lemma good_none h : good_ses h (mkSes SNone Zero Zero).
Proof. split; [|split]; cbn; try discriminate; intros k []. Qed.
Lemma Forall_del (P : Z * session -> Prop) i l : Forall P l -> Forall P (del i l).
Proof. intros F. apply Forall_forall. intros x I. rewrite Forall_forall in F. apply F. eapply in_del; eauto. Qed.

Lemma update_inv h s recv e delete l o s' : Inv h s -> (delete = false -> key_accepted c h (t_kx (tk s o))) ->
  update_session recv e delete l o s = Ok s' -> Inv h s' /\ objs s' = objs s /\ peers s' = peers s /\ own s' = own s /\ mep s' = mep s /\ cur s' = cur s /\ ask s' = ask s /\ back s' = back s.
Proof.
  intros Iv K. unfold update_session. destruct l; [discriminate|]. destruct (negb recv && _); [intros [= <-]; auto 10|].
  destruct delete.
  - intros [= <-]. split; [|cbn; auto 10]. destruct Iv. eapply Inv_same; [constructor; eauto|..]; proj; auto. apply Forall_del, Forall_del; auto.
  - destruct (_ && negb _); [intros [= <-]; auto 10|]. destruct (_ || _); [|intros [= <-]; auto 10].
    specialize (K eq_refl).
    match goal with |- context [set_sess ?v s] => set (v0 := v) end.
    assert (G : Forall (fun x => good_ses h (snd x)) v0).
    { subst v0. constructor; cbn [snd].
      - destruct (find (initial_id _ _) _); [apply good_none|]. split; [|split]; cbn; auto using good_kx. eauto.
      - apply Forall_del. constructor; cbn [snd].
        + destruct (find (private_id _ _) _); [apply good_none|]. split; [|split]; cbn; auto using good_kx. discriminate.
        + apply Forall_del. apply i_sess; auto. }
    assert (Iv1 : Inv h (set_sess v0 s)). { destruct Iv. eapply Inv_same; [constructor; eauto|..]; proj; auto. }
    destruct recv; [intros [= <-]; split; [auto|cbn; auto 10]|].
    destruct (find (cur _) _); intros [= <-]; (split; [|cbn; auto 10]); auto.
    destruct Iv1. eapply Inv_same; [constructor; eauto|..]; proj; auto.
Qed.

Lemma announce_inv h s : Inv h s -> Inv h (announce s).
Proof. intros Iv. unfold announce. destruct (own s); auto. destruct Iv. eapply Inv_same; [constructor; eauto|..]; proj; auto. Qed.
Lemma announce_mep s : mep (announce s) = mep s /\ objs (announce s) = objs s /\ peers (announce s) = peers s /\ own (announce s) = own s /\ sess (announce s) = sess s.
Proof. unfold announce. destruct (own s) eqn:E; cbn; auto 10. Qed.

Lemma several_lor m t k : several m -> several t -> several (Z.lor m (Z.land t k)).
Proof. intros [A B] [C D]. split; rewrite Z.lor_spec, Z.land_spec, ?A, ?B, ?C, ?D; auto. Qed.
Lemma several_land m k : several m -> flag_cmp (Z.land m k) 16 = false /\ flag_cmp (Z.land m k) 1 = false.
Proof. intros [A B]. split; [apply (bit_off m k 4)|apply (bit_off m k 0)]; auto; lia. Qed.

Lemma add_inv h s e o s' : Inv h s -> foreign s o ->
  add c e o s = Ok s' -> Inv h s' /\ (forall x, tk s' x = tk s x) /\ foreign s' o.
Proof.
  intros Iv Fo. pose proof (i_mep _ _ Iv) as Sm. pose proof (i_sev _ _ Iv o Fo) as St. unfold add.
  set (s0 := set_mep _ s). assert (Iv0 : Inv h s0). { destruct Iv. eapply Inv_same; [constructor; eauto|..]; subst s0; proj; auto. apply several_lor; auto. }
  pose proof (i_mep _ _ Iv0) as S0.
  assert (T0 : forall x, tk s0 x = tk s x) by (intros; apply tk_objs; reflexivity).
  assert (F0 : foreign s0 o) by exact Fo.
  destruct (0 <? t_max (tk s o)); [|intros [= <-]; auto].
  replace (flag_cmp (Z.land (mep s0) (if x_recv c then 240 else 15)) (if x_recv c then 16 else 1)) with false.
  2:{ destruct (several_land (mep s0) (if x_recv c then 240 else 15) S0). destruct (x_recv c); auto. }
  match goal with |- context [if auth ?z o then _ else _] => set (s1 := z) end.
  assert (R : Inv h s1 /\ (forall x, tk s1 x = tk s x) /\ foreign s1 o).
  { subst s1. destruct (replace _ s0 o (peers s0)) as [[x l]|] eqn:Rp.
    - destruct (replace_spec _ _ _ _ _ _ Rp) as (I & Eq & a & b & El & -> & _).
      assert (Iv1 : Inv h (set_peers (a ++ o :: b) s0)).
      { destruct Iv0. eapply Inv_same; [constructor; eauto|..]; proj; auto. rewrite El in i_peers0. apply Forall_app in i_peers0. destruct i_peers0 as [Fa Fb].
        inversion Fb; subst. apply Forall_app. split; auto. }
      assert (F1 : foreign (set_peers (a ++ o :: b) s0) o) by exact F0.
      destruct (set_auth_facts (set_peers (a ++ o :: b) s0) o (auth s0 x) (proj1 F1)) as (T & M & A & A' & L).
      split; [|split].
      + apply Inv_set_auth; auto. apply F1. intros Ax.
        assert (Fx : foreign s0 x). { pose proof (i_peers _ _ Iv0) as P. rewrite Forall_forall in P. auto. }
        pose proof (i_auth _ _ Iv0 x Fx Ax) as K. change (tk (set_peers (a ++ o :: b) s0) o) with (tk s0 o).
        destruct Eq as [->|Eq]; auto. apply exact_kx in Eq. destruct Eq as [<- _]. auto.
      + intros y. rewrite T. apply T0.
      + unfold foreign. rewrite L, M. exact F1.
    - assert (Iv1 : Inv h (set_peers (insert_at (e_pos e) o (peers s0)) s0)).
      { destruct Iv0. eapply Inv_same; [constructor; eauto|..]; proj; auto. apply Forall_insert; auto. }
      auto. }
  destruct R as (Iv1 & T1 & F1). destruct (auth s1 o) eqn:Au; [|intros [= <-]; auto].
  intros U. destruct (update_inv h s1 _ _ false _ _ _ Iv1 (fun _ => i_auth _ _ Iv1 o F1 Au) U) as (Iv2 & Eo & _ & _ & Em & _).
  split; auto. split; [intros x; rewrite <- T1; apply tk_objs; auto|].
  unfold foreign. rewrite Eo. destruct (tk_objs s' s1 Eo o) as (_ & _ & ->). exact F1.
Qed.

Definition meant (t : tok) : bool := let aud := if x_protected c then t_aud t else 0 in (x_me c =? aud) || (x_realm c =? aud).
Lemma handle_inv h s e o s' : Inv h s -> foreign s o ->
  (e_policy e (tk s o) = true -> meant (tk s o) = true -> admitted c h (tk s o)) ->
  handle_intent c e o s = Ok s' -> Inv h s' /\ (forall x, tk s' x = tk s x).
Proof.
  intros Iv Fo Ad. unfold handle_intent. fold (meant (tk s o)).
  destruct (e_policy e (tk s o)) eqn:P; [|intros [= <-]; auto]. destruct (meant (tk s o)) eqn:M; [|intros [= <-]; auto]. cbn [andb].
  specialize (Ad eq_refl eq_refl).
  set (s1 := if negb (x_recv c) && auth s o then announce s else s).
  assert (Iv1 : Inv h s1) by (subst s1; destruct (_ && _); auto using announce_inv).
  assert (E1 : mep s1 = mep s /\ objs s1 = objs s). { subst s1; destruct (_ && _); auto. destruct (announce_mep s) as (? & ? & _); auto. }
  destruct E1 as [E1 E2]. pose proof (tk_objs s1 s E2) as T1.
  assert (F1 : foreign s1 o). { unfold foreign. rewrite E2. destruct (T1 o) as (_ & _ & ->). exact Fo. }
  destruct (add c e o s1) as [s2| |] eqn:A; cbn [obind]; try discriminate.
  destruct (T1 o) as (To & _ & _).
  destruct (add_inv h s1 e o s2 Iv1 F1) as (Iv2 & T2 & F2); auto.
  assert (T : forall x, tk s2 x = tk s x). { intros x. rewrite T2. apply T1. }
  destruct (auth s2 o); intros [= <-].
  - auto.
  - split; [|auto]. destruct Iv2. eapply Inv_same; [constructor; eauto|..]; proj; auto.
    apply Forall_app. split; auto. constructor; auto. rewrite T. auto.
Qed.

Lemma Inv_new h s ob' : Inv h s -> (o_auth ob' = true -> o_mine ob' = true) -> (o_mine ob' = false -> several (t_mep (o_tok ob'))) -> Inv h (set_objs (objs s ++ [ob']) s).
Proof.
  intros Iv N N2. set (s' := set_objs _ s).
  assert (Le : length (objs s') = S (length (objs s))) by (subst s'; proj; rewrite app_length; cbn; lia).
  assert (T : forall x, (x < length (objs s))%nat -> ob s' x = ob s x). { intros x L. subst s'. unfold ob. proj. apply app_nth1; auto. }
  assert (F : forall x, foreign s x -> foreign s' x /\ tk s' x = tk s x).
  { intros x [L M]. unfold foreign, tk. rewrite Le, T by auto. split; [split; [lia|auto]|auto]. }
  destruct Iv. constructor; auto.
  - intros x [L M] A. destruct (Nat.eq_dec x (length (objs s))) as [->|Ne].
    + unfold auth, ob in *. subst s'. proj. rewrite app_nth2, Nat.sub_diag in * by lia. cbn [nth] in *. rewrite N in M by auto. discriminate.
    + assert (L' : (x < length (objs s))%nat) by lia. unfold auth, tk in *. rewrite T in * by auto. apply i_auth0; auto. split; auto.
  - eapply Forall_impl; [|exact i_peers0]. intros x H. apply F; auto.
  - eapply Forall_impl; [|exact i_ask0]. intros x [H1 H2]. destruct (F x H1) as [? ->]. auto.
  - eapply Forall_impl; [|exact i_back0]. intros x [H1 H2]. destruct (F x H1) as [? ->]. auto.
  - intros x [L M]. destruct (Nat.eq_dec x (length (objs s))) as [->|Ne].
    + unfold tk, ob in *. subst s'. proj. rewrite app_nth2, Nat.sub_diag in * by lia. cbn [nth] in *. auto.
    + assert (L' : (x < length (objs s))%nat) by lia. unfold tk. rewrite T in * by auto. apply i_sev0. split; auto.
Qed.

Lemma import1_good h from x l : (exists k, from = Kx k) -> good h from -> Forall (fun x => good_ses h (snd x)) l -> Forall (fun x => good_ses h (snd x)) (import1 from x l).
Proof.
  intros _ G F. unfold import1. destruct (find (fst x) l) as [old|] eqn:E.
  - constructor; [|apply Forall_del; auto]. cbn [snd]. apply find_in in E. rewrite Forall_forall in F. specialize (F _ E). cbn [snd] in F. destruct F as (A & B & _).
    split; [|split]; cbn; auto; discriminate.
  - constructor; auto. cbn [snd]. split; [|split]; cbn; auto; try discriminate. intros k [].
Qed.
Lemma import_good h from b l : (exists k, from = Kx k) -> good h from -> Forall (fun x => good_ses h (snd x)) l -> Forall (fun x => good_ses h (snd x)) (import_session from b l).
Proof. intros K G. unfold import_session. revert l. induction b as [|x b IH]; cbn [fold_left]; auto. intros l F. apply IH. apply import1_good; auto. Qed.

Lemma check_peers_inv h s e s' : Inv h s -> check_peers c e s = Ok s' -> Inv h s' /\ mep s' = mep s /\ objs s' = objs s.
Proof.
  intros Iv. unfold check_peers. destruct (first_invalid _ _ _); [|intros [= <-]; auto].
  destruct (update_session _ _ _ _ _ _) as [s1| |] eqn:U; cbn [obind]; try discriminate. intros [= <-].
  destruct (update_inv h s _ _ _ _ _ _ Iv (fun H : true = false => ltac:(discriminate)) U) as (Iv1 & Eo & Ep & Ew & Em & _).
  split; [|auto]. destruct Iv1. eapply Inv_same; [constructor; eauto|..]; proj; auto. apply Forall_remove; auto.
Qed.
Lemma check_own_inv h s e s' : Inv h s -> check_own c e s = Ok s' -> Inv h s' /\ mep s' = mep s /\ objs s' = objs s.
Proof.
  intros Iv. unfold check_own. destruct (first_invalid _ _ _); [|intros [= <-]; auto].
  destruct (update_session _ _ _ _ _ _) as [s1| |] eqn:U; cbn [obind]; try discriminate. intros [= <-].
  destruct (update_inv h s _ _ _ _ _ _ Iv (fun H : true = false => ltac:(discriminate)) U) as (Iv1 & Eo & Ep & Ew & Em & _).
  split; [|auto]. destruct Iv1. eapply Inv_same; [constructor; eauto|..]; proj; auto.
Qed.

Lemma step_inv h x s s' : Inv h s -> match snd x with Intent t => several (t_mep t) | _ => True end ->
  step c x s = Ok s' -> Inv (h ++ [x]) s'.
Proof.
  intros Iv0 Sx. pose proof (Inv_app h [x] s Iv0) as Iv. set (h' := h ++ [x]) in *. assert (Ix : In x h') by (apply in_or_app; right; left; auto). clearbody h'. clear Iv0 h.
  destruct x as [e a]. cbn [snd] in Sx. destruct a; cbn [step].
  - destruct (e_valid e t) eqn:V; [|intros [= <-]; auto].
    set (s0 := set_objs _ s). assert (I0 : Inv h' s0) by (apply Inv_new; auto; cbn; discriminate).
    assert (O0 : ob s0 (length (objs s)) = mkObj t false false). { subst s0. unfold ob. proj. rewrite app_nth2, Nat.sub_diag by lia. reflexivity. }
    assert (T0 : tk s0 (length (objs s)) = t) by (unfold tk; rewrite O0; auto).
    intros H. apply (handle_inv h' s0 e (length (objs s)) s'); auto.
    + split; [|rewrite O0; auto]. subst s0. proj. rewrite app_length. cbn. lia.
    + rewrite T0. intros P M. exists e. split; auto. split; auto. split; auto. intros Pr. unfold meant in M. rewrite Pr in M. lia.
  - destruct (ask s) as [|o r] eqn:A; [intros [= <-]; auto|].
    pose proof (i_ask _ _ Iv) as Fa. rewrite A in Fa. inversion Fa as [|? ? [Fo Ad] Fr]; subst.
    assert (I1 : Inv h' (set_ask r s)). { destruct Iv. eapply Inv_same; [constructor; eauto|..]; proj; auto. }
    destruct (e_valid e (tk (set_ask r s) o)) eqn:V; [|intros [= <-]; auto]. intros [= <-]. unfold handle_authz.
    destruct (auth (set_ask r s) o); auto. destruct (decision e (tk (set_ask r s) o)) eqn:D; [|auto]. destruct (negb (x_client c)); [|auto]. cbn [andb].
    assert (I2 : Inv h' (set_auth o true (set_ask r s))).
    { apply Inv_set_auth; auto. apply Fo. intros _. exists (tk s o), e. split; auto. split; auto. split; auto. split; auto.
      change (tk (set_ask r s) o) with (tk s o) in D. unfold decision in D. unfold said_yes.
      destruct (e_in e (tk s o)) as [[]|]; destruct (e_out e (tk s o)) as [[]|]; auto; cbn in D; auto. }
    destruct (set_auth_facts (set_ask r s) o true (proj1 Fo)) as (T & M & _ & _ & L).
    destruct I2. eapply Inv_same; [constructor; eauto|..]; unfold set_accepted, set_back; cbn [objs peers ask back sess sent]; auto.
    apply Forall_app. split; auto. constructor; auto. rewrite T. split; auto. unfold foreign. rewrite L, M. exact Fo.
  - destruct (back s) as [|o r] eqn:A; [intros [= <-]; auto|].
    pose proof (i_back _ _ Iv) as Fa. rewrite A in Fa. inversion Fa as [|? ? [Fo Ad] Fr]; subst.
    assert (I1 : Inv h' (set_back r s)). { destruct Iv. eapply Inv_same; [constructor; eauto|..]; proj; auto. }
    destruct (e_valid e (tk (set_back r s) o)) eqn:V; [|intros [= <-]; auto]. intros H.
    apply (handle_inv h' (set_back r s) e o s'); auto.
  - unfold intent_check. destruct (x_recv c).
    + destruct (check_peers c e s) as [s1| |] eqn:E1; cbn [obind]; try discriminate. intros E2.
      destruct (check_peers_inv _ _ _ _ Iv E1) as (I1 & _). destruct (check_own_inv _ _ _ _ I1 E2); auto.
    + destruct (check_own c e s) as [s1| |] eqn:E1; cbn [obind]; try discriminate. intros E2.
      destruct (check_own_inv _ _ _ _ Iv E1) as (I1 & _). destruct (check_peers_inv _ _ _ _ I1 E2); auto.
  - intros [= <-]. unfold new_own.
    set (s1 := set_objs _ s). assert (I1 : Inv h' s1) by (apply Inv_new; cbn; auto; discriminate).
    set (s2 := match own s1 with [] => _ | _ => _ end).
    assert (I2 : Inv h' s2).
    { subst s2. destruct (own s1); [|destruct (replace _ _ _ _) as [[y l']|]]; auto; destruct I1; (eapply Inv_same; [constructor; eauto|..]; proj; auto). }
    set (s3 := set_sess _ s2).
    assert (I3 : Inv h' s3).
    { destruct I2. eapply Inv_same; [constructor; eauto|..]; subst s3; proj; auto. unfold put_new. destruct (find _ _); auto. constructor; auto. cbn [snd].
      split; [|split]; cbn; try discriminate; intros k []. }
    destruct (x_recv c); auto. destruct I3. eapply Inv_same; [constructor; eauto|..]; proj; auto.
  - intros [= <-]. apply announce_inv; auto.
  - destruct (find id (sess s)) as [se|] eqn:F; [|intros [= <-]; auto]. destruct (s_type se) eqn:Ty; try (intros [= <-]; auto; fail).
    destruct (x_recv c); [|intros [= <-]; auto]. intros [= <-].
    pose proof (i_sess _ _ Iv) as G. pose proof (find_in _ _ _ F) as Fi. rewrite Forall_forall in G. specialize (G _ Fi). cbn [snd] in G. destruct G as (G1 & G2 & G3).
    destruct Iv. eapply Inv_same; [constructor; eauto|..]; proj; auto. apply import_good; auto.
  - destruct (outbox s) as [|i r]; [intros [= <-]; auto|]. intros [= <-].
    destruct (find i (sess s)) as [se|] eqn:F.
    + pose proof (i_sess _ _ Iv) as G. pose proof (find_in _ _ _ F) as Fi. rewrite Forall_forall in G. specialize (G _ Fi). cbn [snd] in G. destruct G as (G1 & G2 & G3).
      destruct Iv. eapply Inv_same; [constructor; eauto|..]; proj; auto. apply Forall_app. split; auto.
    + destruct Iv. eapply Inv_same; [constructor; eauto|..]; proj; auto.
Qed.
End History.

Lemma run_inv c h : forall hp s s', Inv c hp s -> all_several h -> run c h s = Ok s' -> Inv c (hp ++ h) s'.
Proof.
  induction h as [|x h IH]; intros hp s s' Iv A; cbn [run].
  - intros [= <-]. rewrite app_nil_r. auto.
  - inversion A; subst. destruct (step c x s) as [s1| |] eqn:E; cbn [obind]; try discriminate. intros R.
    replace (hp ++ x :: h) with ((hp ++ [x]) ++ h) by (rewrite <- app_assoc; auto). eapply IH; eauto. eapply step_inv; eauto.
Qed.
Lemma start_inv c m : several m -> Inv c [] (start m).
Proof. intros S. constructor; cbn; auto. intros o [L _]. cbn in L. lia. intros o [L _]. cbn in L. lia. Qed.
Lemma reach_inv c m h s : several m -> all_several h -> run c h (start m) = Ok s -> Inv c h s.
Proof. intros S A R. apply (run_inv c h [] (start m) s); auto using start_inv. Qed.

(** no two intents with the same key and uuid *)
Definition keyof (s : st) (o : nat) : Z * Z := (t_kx (tk s o), t_uuid (tk s o)).
Definition uniq (s : st) : Prop := NoDup (map (keyof s) (peers s)).
Lemma uniq_same s s' : (forall x, In x (peers s') -> tk s' x = tk s x) -> peers s' = peers s -> uniq s -> uniq s'.
Proof.
  unfold uniq. intros T E U. rewrite E in *. replace (map (keyof s') (peers s)) with (map (keyof s) (peers s)); auto.
  apply map_ext_in. intros x I. unfold keyof. rewrite T by auto. auto.
Qed.
Lemma exact_iff a b : intent_cmp_exact a b = true <-> (t_kx a, t_uuid a) = (t_kx b, t_uuid b).
Proof.
  unfold intent_cmp_exact, intent_cmp. split.
  - intros H. f_equal; lia.
  - intros [= -> ->]. rewrite !Z.eqb_refl. reflexivity.
Qed.
Lemma key_same s s' l : (forall x, tk s' x = tk s x) -> map (keyof s') l = map (keyof s) l.
Proof. intros T. apply map_ext. intros x. unfold keyof. rewrite T. auto. Qed.
Lemma uniq_insert s n o : uniq s -> ~ In (keyof s o) (map (keyof s) (peers s)) -> NoDup (map (keyof s) (insert_at n o (peers s))).
Proof.
  intros U N. unfold insert_at. rewrite map_app. cbn [map]. apply NoDup_Add with (a := keyof s o) (l := map (keyof s) (peers s)).
  - rewrite <- (firstn_skipn n (peers s)) at 1. rewrite map_app. apply Add_app.
  - split; auto.
Qed.
Lemma remove_sub s o l x : In x (remove s o l) -> In x l.
Proof. induction l as [|y l IH]; cbn [remove]; auto. destruct (_ || _); cbn; intuition. Qed.
Lemma remove_nodup s o l : NoDup (map (keyof s) l) -> NoDup (map (keyof s) (remove s o l)).
Proof.
  induction l as [|y l IH]; cbn [remove map]; auto. intros N. inversion N; subst. destruct (_ || _); auto. cbn [map]. constructor; auto.
  intros I. apply in_map_iff in I. destruct I as (z & E & I). apply H1. rewrite <- E. apply in_map. eapply remove_sub; eauto.
Qed.

Lemma add_uniq c e o s s' h : Inv c h s -> foreign s o -> uniq s -> add c e o s = Ok s' -> uniq s'.
Proof.
  intros Iv Fo U. unfold add. set (s0 := set_mep _ s).
  assert (S0 : several (mep s0)). { subst s0. proj. apply several_lor; [eapply i_mep|eapply i_sev]; eauto. }
  assert (U0 : uniq s0) by exact U.
  assert (Iv0 : Inv c h s0). { destruct Iv. eapply Inv_same; [constructor; eauto|..]; subst s0; proj; auto. }
  destruct (0 <? t_max (tk s o)); [|intros [= <-]; auto].
  replace (flag_cmp (Z.land (mep s0) (if x_recv c then 240 else 15)) (if x_recv c then 16 else 1)) with false.
  2:{ destruct (several_land (mep s0) (if x_recv c then 240 else 15) S0). destruct (x_recv c); auto. }
  match goal with |- context [if auth ?z o then _ else _] => set (s1 := z) end.
  assert (U1 : uniq s1).
  { subst s1. destruct (replace _ s0 o (peers s0)) as [[x l]|] eqn:Rp.
    - destruct (replace_spec _ _ _ _ _ _ Rp) as (I & Eq & a & b & El & -> & _).
      assert (F1 : foreign (set_peers (a ++ o :: b) s0) o) by exact Fo.
      destruct (set_auth_facts (set_peers (a ++ o :: b) s0) o (auth s0 x) (proj1 F1)) as (T & _).
      unfold uniq. rewrite (key_same (set_peers (a ++ o :: b) s0)) by auto. change (peers (set_auth o (auth s0 x) (set_peers (a ++ o :: b) s0))) with (a ++ o :: b).
      change (keyof (set_peers (a ++ o :: b) s0)) with (keyof s0). unfold uniq in U0. rewrite El in U0. rewrite map_app in *. cbn [map] in *.
      replace (keyof s0 o) with (keyof s0 x); auto. destruct Eq as [->|Eq]; auto. apply exact_iff in Eq. exact Eq.
    - unfold uniq. proj. change (keyof (set_peers (insert_at (e_pos e) o (peers s0)) s0)) with (keyof s0). apply uniq_insert; auto.
      apply replace_none in Rp. intros I. apply in_map_iff in I. destruct I as (z & E & I). rewrite Forall_forall in Rp. destruct (Rp _ I) as [_ N].
      assert (intent_cmp_exact (tk s0 z) (tk s0 o) = true) by (apply exact_iff; exact E). congruence. }
  destruct (auth s1 o); [|intros [= <-]; auto].
  unfold update_session. destruct (own s1); [discriminate|]. destruct (_ && _); [intros [= <-]; auto|]. destruct (_ && negb _); [intros [= <-]; auto|].
  destruct (_ || _); [|intros [= <-]; auto]. destruct (x_recv c); [intros [= <-]; exact U1|]. destruct (find _ _); intros [= <-]; exact U1.
Qed.
Lemma handle_uniq c e o s s' h : Inv c h s -> foreign s o -> uniq s -> handle_intent c e o s = Ok s' -> uniq s'.
Proof.
  intros Iv Fo U. unfold handle_intent. destruct (_ && _); [|intros [= <-]; auto].
  set (s1 := if negb (x_recv c) && auth s o then announce s else s).
  assert (E : objs s1 = objs s /\ peers s1 = peers s). { subst s1. destruct (_ && _); auto. destruct (announce_mep s) as (_ & ? & ? & _). auto. }
  destruct E as [Eo Ep]. pose proof (tk_objs s1 s Eo) as T.
  assert (I1 : Inv c h s1) by (subst s1; destruct (_ && _); auto using announce_inv).
  assert (U1 : uniq s1). { eapply uniq_same; [|eassumption|eassumption]. intros x _. apply T. }
  assert (F1 : foreign s1 o). { unfold foreign. rewrite Eo. destruct (T o) as (_ & _ & ->). auto. }
  destruct (add c e o s1) as [s2| |] eqn:A; cbn [obind]; try discriminate. pose proof (add_uniq _ _ _ _ _ _ I1 F1 U1 A) as U2.
  destruct (auth s2 o); intros [= <-]; exact U2.
Qed.
Lemma step_uniq c h x s s' : Inv c h s -> uniq s -> match snd x with Intent t => several (t_mep t) | _ => True end -> step c x s = Ok s' -> uniq s'.
Proof.
  intros Iv U Sx. destruct x as [e a]. cbn [snd] in Sx. destruct a; cbn [step].
  - destruct (e_valid e t); [|intros [= <-]; auto]. apply (handle_uniq c e _ _ _ h).
    + apply Inv_new; auto; cbn; discriminate.
    + split; [proj; rewrite app_length; cbn; lia|]. unfold ob. proj. rewrite app_nth2, Nat.sub_diag by lia. reflexivity.
    + apply (uniq_same s); [|reflexivity|exact U]. intros x I. unfold tk, ob. proj. rewrite app_nth1; auto. pose proof (i_peers _ _ _ Iv) as P. rewrite Forall_forall in P. apply (P _ I).
  - destruct (ask s) as [|o r] eqn:A; [intros [= <-]; auto|]. pose proof (i_ask _ _ _ Iv) as Fa. rewrite A in Fa. inversion Fa as [|? ? [Fo _] _]; subst.
    destruct (e_valid _ _); intros [= <-]; [|exact U]. unfold handle_authz. destruct (auth _ _); [exact U|]. destruct (_ && _); [|exact U].
    destruct (set_auth_facts (set_ask r s) o true (proj1 Fo)) as (T & _).
    unfold uniq. change (map (keyof (set_auth o true (set_ask r s))) (peers s) = map (keyof s) (peers s) -> NoDup (map (keyof (set_auth o true (set_ask r s))) (peers s)) ) || idtac.
    change (NoDup (map (keyof (set_auth o true (set_ask r s))) (peers s))). rewrite (key_same (set_ask r s)) by auto. exact U.
  - destruct (back s) as [|o r] eqn:A; [intros [= <-]; auto|]. pose proof (i_back _ _ _ Iv) as Fa. rewrite A in Fa. inversion Fa as [|? ? [Fo _] Fr]; subst.
    destruct (e_valid _ _); [|intros [= <-]; exact U]. apply (handle_uniq c e _ _ _ h); auto. destruct Iv. eapply Inv_same; [constructor; eauto|..]; proj; auto.
  - assert (P : forall s s', Inv c h s -> uniq s -> check_peers c e s = Ok s' -> uniq s').
    { clear. intros s s' Iv U. unfold check_peers. destruct (first_invalid _ _ _); [|intros [= <-]; auto]. destruct (update_session _ _ _ _ _ _) as [s1| |] eqn:E; cbn [obind]; try discriminate.
      destruct (update_inv c h s _ _ _ _ _ _ Iv (fun H : true = false => ltac:(discriminate)) E) as (_ & Eo & Ep & _). intros [= <-].
      assert (U1 : uniq s1). { eapply uniq_same; [|eassumption|eassumption]. intros x _. apply tk_objs; auto. }
      unfold uniq. proj. apply (remove_nodup s1). exact U1. }
    assert (P' : forall s s', Inv c h s -> uniq s -> check_own c e s = Ok s' -> uniq s').
    { clear. intros s s' Iv U. unfold check_own. destruct (first_invalid _ _ _); [|intros [= <-]; auto]. destruct (update_session _ _ _ _ _ _) as [s1| |] eqn:E; cbn [obind]; try discriminate.
      destruct (update_inv c h s _ _ _ _ _ _ Iv (fun H : true = false => ltac:(discriminate)) E) as (_ & Eo & Ep & _). intros [= <-].
      assert (U1 : uniq s1). { eapply uniq_same; [|eassumption|eassumption]. intros x _. apply tk_objs; auto. } exact U1. }
    unfold intent_check. destruct (x_recv c).
    + destruct (check_peers c e s) as [s1| |] eqn:E1; cbn [obind]; try discriminate. intros E2. destruct (check_peers_inv _ _ _ _ _ Iv E1). eauto.
    + destruct (check_own c e s) as [s1| |] eqn:E1; cbn [obind]; try discriminate. intros E2. destruct (check_own_inv _ _ _ _ _ Iv E1). eauto.
  - intros [= <-]. eapply (uniq_same s); auto.
    + intros x I. unfold new_own in I |- *. 
      assert (L : (x < length (objs s))%nat).
      { pose proof (i_peers _ _ _ Iv) as P. rewrite Forall_forall in P. apply (P x). 
        destruct (x_recv c); proj; destruct (own _) in I; proj; auto; destruct (replace _ _ _ _) as [[? ?]|] in I; proj; auto. }
      destruct (x_recv c); unfold tk, ob; proj; destruct (own s); proj; try (rewrite app_nth1; auto; fail);
        destruct (replace _ _ _ _) as [[? ?]|]; proj; rewrite app_nth1; auto.
    + unfold new_own. destruct (x_recv c); proj; destruct (own s); proj; auto; destruct (replace _ _ _ _) as [[? ?]|]; proj; auto.
  - intros [= <-]. destruct (announce_mep s) as (_ & Eo & Ep & _). eapply uniq_same; [|eassumption|eassumption]. intros x _. apply tk_objs; auto.
  - destruct (find _ _) as [se|]; [|intros [= <-]; auto]. destruct (s_type se); try (intros [= <-]; auto; fail). destruct (x_recv c); intros [= <-]; auto.
  - destruct (outbox s); intros [= <-]; auto. destruct (find _ _); exact U.
Qed.
Lemma run_uniq c h : forall hp s s', Inv c hp s -> uniq s -> all_several h -> run c h s = Ok s' -> uniq s'.
Proof.
  induction h as [|x h IH]; intros hp s s' Iv U A; cbn [run]; [intros [= <-]; auto|].
  inversion A; subst. destruct (step c x s) as [s1| |] eqn:E; cbn [obind]; try discriminate. intros R.
  eapply (IH (hp ++ [x])); [|eapply step_uniq; eauto| |exact R]; auto. eapply step_inv; eauto.
Qed.
Lemma reach_uniq c m h s : several m -> all_several h -> run c h (start m) = Ok s -> uniq s.
Proof. intros S A R. eapply (run_uniq c h [] (start m)); eauto using start_inv. constructor. Qed.

(** removal of invalid intents *)
Definition live (e : env) (s : st) (o : nat) : bool := e_valid e (tk s o).
Lemma first_invalid_spec e s l : match first_invalid e s l with
  | None => Forall (fun o => live e s o = true) l
  | Some o => exists a b, l = a ++ o :: b /\ live e s o = false /\ Forall (fun o => live e s o = true) a end.
Proof.
  unfold first_invalid, live. induction l as [|x l IH]; cbn [List.find]; auto. destruct (e_valid e (tk s x)) eqn:V; cbn [negb].
  - destruct (List.find _ l) as [o|].
    + destruct IH as (a & b & -> & Vo & F). exists (x :: a), b. auto.
    + constructor; auto.
  - exists [], l. auto.
Qed.
Lemma remove_mid s o a b : NoDup (map (keyof s) (a ++ o :: b)) -> remove s o (a ++ o :: b) = a ++ b.
Proof.
  induction a as [|x a IH]; cbn [remove app map].
  - rewrite Nat.eqb_refl. auto.
  - intros N. inversion N; subst. assert (keyof s x <> keyof s o). { intros E. apply H1. rewrite E. apply in_map. apply in_or_app. right; left; auto. }
    replace ((x =? o)%nat || intent_cmp_exact (tk s x) (tk s o)) with false; [rewrite IH; auto|].
    symmetry. apply orb_false_iff. split; [apply Nat.eqb_neq; congruence|]. apply not_true_is_false. intros E. apply exact_iff in E. auto.
Qed.
Lemma own_ok c e s : Forall (fun o => live e s o = true) (own s) -> check_own c e s = Ok s.
Proof.
  intros F. unfold check_own. pose proof (first_invalid_spec e s (own s)) as Sp. destruct (first_invalid e s (own s)); auto.
  destruct Sp as (a & b & E & V & _). rewrite E in F. apply Forall_app in F. destruct F as [_ F]. inversion F; congruence.
Qed.
Lemma check1 c e s : uniq s -> own s <> [] -> Forall (fun o => live e s o = true) (own s) ->
  exists s', step c (e, Check) s = Ok s' /\ objs s' = objs s /\ own s' = own s /\ cur s' = cur s /\ uniq s' /\
    filter (live e s) (peers s') = filter (live e s) (peers s) /\
    (forall i, find i (sess s) = None -> find i (sess s') = None) /\
    (forall o, In o (peers s) -> In o (peers s') \/ (live e s o = false /\ (x_recv c = true \/ t_fp (tk s o) <> cur s -> no_sessions s' (tk s o)))) /\
    ((Forall (fun o => live e s o = true) (peers s) /\ s' = s) \/ (length (peers s') < length (peers s))%nat).
Proof.
  intros U O F.
  assert (P : exists s', check_peers c e s = Ok s' /\ objs s' = objs s /\ own s' = own s /\ cur s' = cur s /\ uniq s' /\
    filter (live e s) (peers s') = filter (live e s) (peers s) /\
    (forall i, find i (sess s) = None -> find i (sess s') = None) /\
    (forall o, In o (peers s) -> In o (peers s') \/ (live e s o = false /\ (x_recv c = true \/ t_fp (tk s o) <> cur s -> no_sessions s' (tk s o)))) /\
    ((Forall (fun o => live e s o = true) (peers s) /\ s' = s) \/ (length (peers s') < length (peers s))%nat)).
  { unfold check_peers. pose proof (first_invalid_spec e s (peers s)) as Sp. destruct (first_invalid e s (peers s)) as [o|].
    2:{ exists s. split; auto 20. }
    destruct Sp as (a & b & E & V & Fa). unfold update_session. destruct (own s) as [|w ws] eqn:Ow; [congruence|].
    assert (Rm : forall v, remove (set_sess v s) o (peers (set_sess v s)) = a ++ b).
    { intros v. unfold uniq in U. rewrite E in U. proj. rewrite E. apply (remove_mid (set_sess v s)). exact U. }
    assert (Rm0 : remove s o (peers s) = a ++ b). { unfold uniq in U. rewrite E in *. apply remove_mid; auto. }
    assert (Nd : NoDup (map (keyof s) (a ++ b))). { unfold uniq in U. rewrite E, map_app in U. cbn [map] in U. apply NoDup_remove_1 in U. rewrite map_app. auto. }
    destruct (negb (x_recv c) && (t_fp (tk s o) =? cur s)) eqn:Q; cbn [obind].
    - eexists. split; [reflexivity|]. rewrite Rm0. proj. rewrite E. unfold uniq. proj. repeat split; auto.
      + rewrite !filter_app. cbn [filter]. rewrite V. auto.
      + intros x I. apply in_app_or in I. destruct I as [I|[<-|I]]; [left; apply in_or_app; auto| |left; apply in_or_app; auto].
        right. split; auto. intros [X|X]; exfalso; [rewrite X in Q; discriminate|]. apply andb_true_iff in Q. destruct Q as [_ Q]. apply Z.eqb_eq in Q. auto.
      + right. rewrite !app_length. cbn. lia.
    - eexists. split; [reflexivity|]. rewrite Rm. proj. rewrite E. unfold uniq. proj. repeat split; auto.
      + rewrite !filter_app. cbn [filter]. rewrite V. auto.
      + intros i N. rewrite !find_del. destruct (i =? _); auto. destruct (i =? _); auto.
      + intros x I. apply in_app_or in I. destruct I as [I|[<-|I]]; [left; apply in_or_app; auto| |left; apply in_or_app; auto].
        right. split; auto. intros _. unfold no_sessions. proj. split; rewrite !find_del, ?Z.eqb_refl; auto; match goal with |- context [if ?b then _ else _] => destruct b end; auto.
      + right. rewrite !app_length. cbn. lia. }
  destruct P as (s' & E & Eo & Ew & Ec & R). exists s'. split; [|auto]. cbn [step]. unfold intent_check. destruct (x_recv c).
  - rewrite E. cbn [obind]. apply own_ok. rewrite Ew. eapply Forall_impl; [|exact F]. intros x H. unfold live in *. destruct (tk_objs s' s Eo x) as (-> & _). auto.
  - rewrite own_ok by auto. cbn [obind]. auto.
Qed.
Lemma checks c e n : forall s, uniq s -> own s <> [] -> Forall (fun o => live e s o = true) (own s) -> (length (peers s) <= n)%nat ->
  exists s', run c (repeat (e, Check) n) s = Ok s' /\ objs s' = objs s /\ cur s' = cur s /\ peers s' = filter (live e s) (peers s) /\
    (forall i, find i (sess s) = None -> find i (sess s') = None) /\
    forall o, In o (peers s) -> live e s o = false -> x_recv c = true \/ t_fp (tk s o) <> cur s -> no_sessions s' (tk s o).
Proof.
  induction n as [|n IH]; intros s U O F L; cbn [repeat run].
  - destruct (peers s) eqn:E; [|cbn in L; lia]. exists s. rewrite E. cbn. intuition.
  - destruct (check1 c e s U O F) as (s1 & E & Eo & Ew & Ec & U1 & Fi & N & D & Cs). rewrite E. cbn [obind].
    assert (Lv : forall o, live e s1 o = live e s o). { intros o. unfold live. destruct (tk_objs s1 s Eo o) as (-> & _). auto. }
    assert (T1 : forall o, tk s1 o = tk s o) by (intros o; apply tk_objs; auto).
    destruct Cs as [[Al ->]|Lt].
    + destruct (Nat.leb_spec (length (peers s)) n) as [Ln|Ln].
      * apply IH; auto.
      * assert (Run : forall k, run c (repeat (e, Check) k) s = Ok s). { induction k; cbn [repeat run]; auto. rewrite E. cbn [obind]. auto. }
        exists s. rewrite Run. repeat split; auto.
        -- clear - Al. induction Al as [|x l H Al IHl]; cbn [filter]; auto. rewrite H. congruence.
        -- intros. rewrite Forall_forall in Al. rewrite Al in *; auto; discriminate.
        -- intros. rewrite Forall_forall in Al. rewrite Al in *; auto; discriminate.
    + destruct (IH s1) as (s' & R & Eo' & Ec' & P' & N' & Z'); auto; try congruence.
      { rewrite Ew. eapply Forall_impl; [|exact F]. intros o H. rewrite Lv. auto. } { lia. }
      exists s'. split; auto. split; [congruence|]. split; [congruence|]. split; [|split; auto].
      * rewrite P'. rewrite <- Fi. apply filter_ext. auto.
      * intros o I V Q. destruct (D o I) as [I1|[_ K]].
        -- rewrite <- T1. apply Z'; auto; [rewrite Lv; auto|rewrite T1, Ec; auto].
        -- specialize (K Q). unfold no_sessions in *. rewrite Ec'. destruct K. split; apply N'; auto.
Qed.

(** an invariant of all histories, also with single partners.  [yes = false]: nobody is accepted *)
Section All.
Variables (c : conf) (H : list (env * ev)) (yes : bool).
Definition come (t : tok) : Prop := exists e, In (e, Intent t) H.
Definition fit (x : Z * session) : Prop :=
  (forall k, s_read (snd x) = Kx k \/ s_write (snd x) = Kx k -> id_of H k (fst x)) /\
  (forall k, rooted (s_read (snd x)) k \/ rooted (s_write (snd x)) k -> yes = true) /\
  (s_type (snd x) = SInitial -> yes = true).
Record J (s : st) : Prop := {
  j_src : forall o, foreign s o -> come (tk s o);
  j_auth : forall o, foreign s o -> auth s o = true -> yes = true;
  j_peers : Forall (foreign s) (peers s);
  j_ask : Forall (foreign s) (ask s);
  j_back : Forall (fun o => foreign s o /\ yes = true) (back s);
  j_sess : Forall fit (sess s);
  j_out : outbox s = [] \/ yes = true;
  j_sent : sent s = [] \/ yes = true }.
Lemma J_same s s' : J s -> objs s' = objs s -> Forall (foreign s) (peers s') -> Forall (foreign s) (ask s') ->
  Forall (fun o => foreign s o /\ yes = true) (back s') -> Forall fit (sess s') -> (outbox s' = [] \/ yes = true) -> (sent s' = [] \/ yes = true) -> J s'.
Proof.
  intros [] E P A B Se Ou Sn. pose proof (tk_objs s' s E) as T.
  assert (F : forall o, foreign s o -> foreign s' o). { intros o [L M]. split; [rewrite E; auto|]. destruct (T o) as (_ & _ & ->); auto. }
  assert (F2 : forall o, foreign s' o -> foreign s o). { intros o [L M]. rewrite E in L. split; auto. destruct (T o) as (_ & _ & <-); auto. }
  constructor; auto.
  - intros o Fo. destruct (T o) as (-> & _). auto.
  - intros o Fo Au. destruct (T o) as (_ & Ea & _). rewrite Ea in Au. eauto.
  - eapply Forall_impl; [|exact P]. auto.
  - eapply Forall_impl; [|exact A]. auto.
  - eapply Forall_impl; [|exact B]. intros o []; auto.
Qed.
Lemma J_set_auth s o b : J s -> (o < length (objs s))%nat -> (foreign s o -> b = true -> yes = true) -> J (set_auth o b s).
Proof.
  intros [] L K. destruct (set_auth_facts s o b L) as (T & M & A & A' & Le).
  assert (F : forall x, foreign s x <-> foreign (set_auth o b s) x). { intros x. unfold foreign. rewrite Le, M. tauto. }
  constructor; auto.
  - intros x Fx. rewrite T. apply j_src0. apply F; auto.
  - intros x Fx Au. apply F in Fx. destruct (Nat.eq_dec x o) as [->|N]; [rewrite A in Au; auto|rewrite A' in Au; eauto].
  - eapply Forall_impl; [|exact j_peers0]. intros x. apply F.
  - eapply Forall_impl; [|exact j_ask0]. intros x. apply F.
  - eapply Forall_impl; [|exact j_back0]. intros x [Fx ?]. split; auto. apply F; auto.
Qed.
Lemma J_new s ob' : J s -> (o_mine ob' = false -> come (o_tok ob') /\ o_auth ob' = false) -> J (set_objs (objs s ++ [ob']) s).
Proof.
  intros [] N. set (s' := set_objs _ s).
  assert (O : forall x, (x < length (objs s))%nat -> ob s' x = ob s x). { intros x L. subst s'. unfold ob. proj. rewrite app_nth1; auto. }
  assert (O' : ob s' (length (objs s)) = ob'). { subst s'. unfold ob. proj. rewrite app_nth2, Nat.sub_diag by lia. reflexivity. }
  assert (Le : length (objs s') = S (length (objs s))). { subst s'. proj. rewrite app_length. cbn. lia. }
  assert (F : forall x, foreign s x -> foreign s' x). { intros x [L M]. split; [lia|rewrite O; auto]. }
  assert (F2 : forall x, foreign s' x -> foreign s x \/ (x = length (objs s) /\ o_mine ob' = false)).
  { intros x [L M]. destruct (Nat.eq_dec x (length (objs s))) as [->|Nx]; [right; rewrite O' in M; auto|left]. assert (x < length (objs s))%nat by lia. split; auto. rewrite <- O; auto. }
  constructor; auto.
  - intros x Fx. destruct (F2 x Fx) as [Fs|[-> Mo]]; [|unfold tk; rewrite O'; apply N; auto]. unfold tk. rewrite O by apply Fs. apply j_src0; auto.
  - intros x Fx Au. destruct (F2 x Fx) as [Fs|[-> Mo]]; [|unfold auth in Au; rewrite O' in Au; destruct (N Mo); congruence].
    unfold auth in Au. rewrite O in Au by apply Fs. eauto.
  - eapply Forall_impl; [|exact j_peers0]. auto.
  - eapply Forall_impl; [|exact j_ask0]. auto.
  - eapply Forall_impl; [|exact j_back0]. intros x []; auto.
Qed.
Lemma fit_none i : fit (i, mkSes SNone Zero Zero).
Proof. split; [|split]; cbn; intros; intuition discriminate. Qed.
Lemma update_J s recv e delete l o s' : J s -> (delete = false -> foreign s o /\ yes = true) ->
  update_session recv e delete l o s = Ok s' -> J s' /\ objs s' = objs s /\ peers s' = peers s /\ own s' = own s.
Proof.
  intros Iv K. unfold update_session. destruct l; [discriminate|]. destruct (negb recv && _); [intros [= <-]; auto 10|].
  destruct delete.
  - intros [= <-]. split; [|cbn; auto 10]. destruct Iv. eapply J_same; [constructor; eauto|..]; proj; auto. apply Forall_del, Forall_del; auto.
  - destruct (_ && negb _); [intros [= <-]; auto 10|]. destruct (_ || _); [|intros [= <-]; auto 10].
    specialize (K eq_refl). destruct K as [Fo Y].
    match goal with |- context [set_sess ?v s] => set (v0 := v) end.
    assert (G : Forall fit v0).
    { destruct (j_src _ Iv _ Fo) as [e0 I0]. subst v0. constructor.
      - destruct (find (initial_id _ _) _); [apply fit_none|]. split; [|split]; cbn; auto. intros k [[= <-]|[= <-]]; exists (tk s o), e0, (cur s); auto.
      - apply Forall_del. constructor.
        + destruct (find (private_id _ _) _); [apply fit_none|]. split; [|split]; cbn; auto. intros k [[= <-]|[= <-]]; exists (tk s o), e0, (cur s); auto.
        + apply Forall_del. apply j_sess; auto. }
    assert (Iv1 : J (set_sess v0 s)). { destruct Iv. eapply J_same; [constructor; eauto|..]; proj; auto. }
    destruct recv; [intros [= <-]; split; [auto|cbn; auto 10]|].
    destruct (find (cur _) _); intros [= <-]; (split; [|cbn; auto 10]); auto.
    destruct Iv1. eapply J_same; [constructor; eauto|..]; proj; auto.
Qed.
Lemma announce_J s : J s -> J (announce s).
Proof. intros Iv. unfold announce. destruct (own s); auto. destruct Iv. eapply J_same; [constructor; eauto|..]; proj; auto. Qed.
Lemma add_J s e o s' : J s -> foreign s o -> add c e o s = Ok s' -> J s' /\ foreign s' o.
Proof.
  intros Iv Fo. unfold add. set (s0 := set_mep _ s).
  assert (Iv0 : J s0). { destruct Iv. eapply J_same; [constructor; eauto|..]; subst s0; proj; auto. }
  assert (F0 : foreign s0 o) by exact Fo.
  destruct (0 <? t_max (tk s o)); [|intros [= <-]; auto].
  match goal with |- context [if auth ?z o then _ else _] => set (s1 := z) end.
  assert (R : J s1 /\ foreign s1 o).
  { subst s1. destruct (replace _ s0 o (peers s0)) as [[x l]|] eqn:Rp.
    - destruct (replace_spec _ _ _ _ _ _ Rp) as (I & Eq & a & b & El & -> & _).
      assert (Iv1 : J (set_peers (a ++ o :: b) s0)).
      { destruct Iv0. eapply J_same; [constructor; eauto|..]; proj; auto. rewrite El in j_peers0. apply Forall_app in j_peers0. destruct j_peers0 as [Fa Fb].
        inversion Fb; subst. apply Forall_app. split; auto. }
      assert (F1 : foreign (set_peers (a ++ o :: b) s0) o) by exact F0.
      destruct (set_auth_facts (set_peers (a ++ o :: b) s0) o (auth s0 x) (proj1 F1)) as (T & M & A & A' & L).
      split.
      + apply J_set_auth; auto. apply F1. intros _ Ax.
        assert (Fx : foreign s0 x). { pose proof (j_peers _ Iv0) as P. rewrite Forall_forall in P. auto. }
        apply (j_auth _ Iv0 x Fx Ax).
      + unfold foreign. rewrite L, M. exact F1.
    - split; [|exact F0]. destruct Iv0. eapply J_same; [constructor; eauto|..]; proj; auto. apply Forall_insert; auto. }
  destruct R as (Iv1 & F1). destruct (auth s1 o) eqn:Au; [|intros [= <-]; auto].
  intros U. destruct (update_J s1 _ _ false _ _ _ Iv1 (fun _ => conj F1 (j_auth _ Iv1 o F1 Au)) U) as (Iv2 & Eo & _).
  split; auto. unfold foreign. rewrite Eo. destruct (tk_objs s' s1 Eo o) as (_ & _ & ->). exact F1.
Qed.
Lemma handle_J s e o s' : J s -> foreign s o -> handle_intent c e o s = Ok s' -> J s'.
Proof.
  intros Iv Fo. unfold handle_intent. destruct (_ && _); [|intros [= <-]; auto].
  set (s1 := if negb (x_recv c) && auth s o then announce s else s).
  assert (Iv1 : J s1) by (subst s1; destruct (_ && _); auto using announce_J).
  assert (E2 : objs s1 = objs s). { subst s1; destruct (_ && _); auto. destruct (announce_mep s) as (? & ? & _); auto. }
  assert (F1 : foreign s1 o). { unfold foreign. rewrite E2. destruct (tk_objs s1 s E2 o) as (_ & _ & ->). exact Fo. }
  destruct (add c e o s1) as [s2| |] eqn:A; cbn [obind]; try discriminate.
  destruct (add_J s1 e o s2 Iv1 F1 A) as (Iv2 & F2).
  destruct (auth s2 o); intros [= <-]; auto. destruct Iv2. eapply J_same; [constructor; eauto|..]; proj; auto.
  apply Forall_app. split; auto.
Qed.
Lemma import1_J from x l : yes = true -> Forall (fit) l -> Forall fit (import1 from x l).
Proof.
  intros Y F. unfold import1. destruct (find (fst x) l) as [old|] eqn:E.
  - constructor; [|apply Forall_del; auto]. apply find_in in E. rewrite Forall_forall in F. destruct (F _ E) as (A & B & C0). split; [|split]; cbn [fst snd s_read s_write s_type]; auto.
    intros j [[=]|W]. apply A. auto.
  - constructor; auto. split; [|split]; cbn; auto. intros j [[=]|[=]].
Qed.
Lemma import_J from b : yes = true -> forall l, Forall fit l -> Forall fit (import_session from b l).
Proof. intros Y. unfold import_session. induction b as [|x b IH]; cbn [fold_left]; auto. intros l F. apply IH. apply import1_J; auto. Qed.
Lemma check_peers_J s e s' : J s -> check_peers c e s = Ok s' -> J s'.
Proof.
  intros Iv. unfold check_peers. destruct (first_invalid e s (peers s)); [|intros [= <-]; auto].
  destruct (update_session _ _ _ _ _ _) as [s1| |] eqn:U; cbn [obind]; try discriminate. intros [= <-].
  destruct (update_J s _ _ true _ _ _ Iv (fun H : true = false => ltac:(discriminate)) U) as (I1 & _).
  destruct I1. eapply J_same; [constructor; eauto|..]; proj; auto. apply Forall_remove; auto.
Qed.
Lemma check_own_J s e s' : J s -> check_own c e s = Ok s' -> J s'.
Proof.
  intros Iv. unfold check_own. destruct (first_invalid e s (own s)); [|intros [= <-]; auto].
  destruct (update_session _ _ _ _ _ _) as [s1| |] eqn:U; cbn [obind]; try discriminate. intros [= <-].
  destruct (update_J s _ _ true _ _ _ Iv (fun H : true = false => ltac:(discriminate)) U) as (I1 & _).
  destruct I1. eapply J_same; [constructor; eauto|..]; proj; auto.
Qed.
Lemma step_J x s s' : (yes = false -> nobody c H) -> In x H -> J s -> step c x s = Ok s' -> J s'.
Proof.
  intros No Ix Iv. destruct x as [e a]. destruct a; cbn [step].
  - destruct (e_valid e t) eqn:V; [|intros [= <-]; auto].
    set (s0 := set_objs _ s). assert (I0 : J s0). { apply J_new; auto. cbn. split; auto. exists e; auto. }
    assert (O0 : ob s0 (length (objs s)) = mkObj t false false). { subst s0. unfold ob. proj. rewrite app_nth2, Nat.sub_diag by lia. reflexivity. }
    apply handle_J; auto. split; [|rewrite O0; auto]. subst s0. proj. rewrite app_length. cbn. lia.
  - destruct (ask s) as [|o r] eqn:A; [intros [= <-]; auto|].
    pose proof (j_ask _ Iv) as Fa. rewrite A in Fa. inversion Fa as [|? ? Fo Fr]; subst.
    assert (I1 : J (set_ask r s)). { destruct Iv. eapply J_same; [constructor; eauto|..]; proj; auto. }
    destruct (e_valid e (tk (set_ask r s) o)) eqn:V; [|intros [= <-]; auto]. intros [= <-]. unfold handle_authz.
    destruct (auth (set_ask r s) o); auto. destruct (decision e (tk (set_ask r s) o)) eqn:D; [|auto]. destruct (x_client c) eqn:Cl; [auto|]. cbn [andb negb].
    assert (Y : yes = true).
    { destruct yes; auto. destruct (No eq_refl) as [|N]; [congruence|]. exfalso. apply (N e (tk s o) Ix).
      change (tk (set_ask r s) o) with (tk s o) in D. unfold decision in D. unfold said_yes.
      destruct (e_in e (tk s o)) as [[]|]; destruct (e_out e (tk s o)) as [[]|]; auto; cbn in D; auto. }
    assert (I2 : J (set_auth o true (set_ask r s))) by (apply J_set_auth; auto; apply Fo).
    destruct (set_auth_facts (set_ask r s) o true (proj1 Fo)) as (T & M & _ & _ & L).
    destruct I2. eapply J_same; [constructor; eauto|..]; unfold set_accepted, set_back; cbn [objs peers ask back sess sent outbox]; auto.
    apply Forall_app. split; auto. constructor; auto. split; auto. unfold foreign. rewrite L, M. exact Fo.
  - destruct (back s) as [|o r] eqn:A; [intros [= <-]; auto|].
    pose proof (j_back _ Iv) as Fa. rewrite A in Fa. inversion Fa as [|? ? [Fo Y] Fr]; subst.
    assert (I1 : J (set_back r s)). { destruct Iv. eapply J_same; [constructor; eauto|..]; proj; auto. }
    destruct (e_valid e (tk (set_back r s) o)) eqn:V; [|intros [= <-]; auto]. apply handle_J; auto.
  - unfold intent_check. destruct (x_recv c).
    + destruct (check_peers c e s) as [s1| |] eqn:E1; cbn [obind]; try discriminate. intros E2. eauto using check_peers_J, check_own_J.
    + destruct (check_own c e s) as [s1| |] eqn:E1; cbn [obind]; try discriminate. intros E2. eauto using check_peers_J, check_own_J.
  - intros [= <-]. unfold new_own.
    set (s1 := set_objs _ s). assert (I1 : J s1) by (apply J_new; cbn; auto; discriminate).
    set (s2 := match own s1 with [] => _ | _ => _ end).
    assert (I2 : J s2).
    { subst s2. destruct (own s1); [|destruct (replace _ _ _ _) as [[y l']|]]; auto; destruct I1; (eapply J_same; [constructor; eauto|..]; proj; auto). }
    set (s3 := set_sess _ s2).
    assert (I3 : J s3).
    { destruct I2. eapply J_same; [constructor; eauto|..]; subst s3; proj; auto. unfold put_new. destruct (find _ _); auto. constructor; auto.
      split; [|split]; cbn; intuition discriminate. }
    destruct (x_recv c); auto. pose proof I3 as I3'. destruct I3. eapply J_same; [constructor; eauto|..]; proj; auto.
    match goal with |- context [filter ?f ?l] => destruct (filter f l) as [|z zs] eqn:Fi end; cbn [map]; [rewrite app_nil_r; auto|].
    right. match type of Fi with filter ?f ?l = _ => assert (Iz : In z (filter f l)) by (rewrite Fi; left; auto) end.
    apply filter_In in Iz. destruct Iz as [Iz Cz]. rewrite Forall_forall in j_sess0. destruct (j_sess0 z Iz) as (_ & _ & Ty). apply Ty.
    destruct (s_type (snd z)); auto; rewrite andb_false_r in Cz; discriminate.
  - intros [= <-]. apply announce_J; auto.
  - destruct (find id (sess s)) as [se|] eqn:F; [|intros [= <-]; auto]. destruct (s_type se) eqn:Ty; try (intros [= <-]; auto; fail).
    destruct (x_recv c); [|intros [= <-]; auto]. intros [= <-].
    pose proof (j_sess _ Iv) as G. pose proof (find_in _ _ _ F) as Fi. rewrite Forall_forall in G. destruct (G _ Fi) as (G1 & G2 & G3). cbn [snd] in *.
    destruct Iv. eapply J_same; [constructor; eauto|..]; proj; auto. apply import_J; auto.
  - destruct (outbox s) as [|i r] eqn:Ou; [intros [= <-]; auto|]. intros [= <-].
    assert (Y : yes = true). { destruct (j_out _ Iv) as [X|]; auto. congruence. }
    destruct (find i (sess s)) as [se|] eqn:F; destruct Iv; (eapply J_same; [constructor; eauto|..]; proj; auto).
Qed.
Lemma run_J h : (yes = false -> nobody c H) -> incl h H -> forall s s', J s -> run c h s = Ok s' -> J s'.
Proof.
  intros No. induction h as [|x h IH]; intros I s s' Iv; cbn [run]; [intros [= <-]; auto|].
  destruct (step c x s) as [s1| |] eqn:E; cbn [obind]; try discriminate. apply IH; [intros y Iy; apply I; right; auto|].
  eapply step_J; eauto. apply I. left; auto.
Qed.
Lemma start_J m : J (start m).
Proof. constructor; cbn; auto. intros o [L _]. cbn in L. lia. intros o [L _]. cbn in L. lia. Qed.
End All.

(** a decision that came back *)
Lemma grant c e s o r :
  several (mep s) -> several (t_mep (tk s o)) -> back s = o :: r -> (o < length (objs s))%nat -> auth s o = true -> e_valid e (tk s o) = true -> e_policy e (tk s o) = true ->
  (let aud := if x_protected c then t_aud (tk s o) else 0 in x_me c = aud \/ x_realm c = aud) -> 0 < t_max (tk s o) -> own s <> [] -> e_kx e (tk s o) = true ->
  (forall x, In x (peers s) -> t_kx (tk s x) = t_kx (tk s o) -> t_uuid (tk s x) = t_uuid (tk s o) -> auth s x = true) ->
  let cu := if x_recv c then cur s else t_fp (tk s (hd 0%nat (own s))) in
  (x_recv c = true \/ t_fp (tk s o) <> cu) ->
  private_id (t_fp (tk s o)) cu <> initial_id (t_fp (tk s o)) cu ->
  find (private_id (t_fp (tk s o)) cu) (sess s) = None -> find (initial_id (t_fp (tk s o)) cu) (sess s) = None ->
  exists s', step c (e, Back) s = Ok s' /\ cur s' = cu /\ keyed s' (tk s o) /\ In o (peers s') /\ auth s' o = true.
Proof.
  intros Sm St B L Au V P M Mx Ow Kx Pe cu Q D N1 N2. cbn [step]. rewrite B. change (tk (set_back r s) o) with (tk s o). rewrite V.
  unfold handle_intent. change (tk (set_back r s) o) with (tk s o). rewrite P. change (auth (set_back r s) o) with (auth s o). rewrite Au.
  replace ((x_me c =? (if x_protected c then t_aud (tk s o) else 0)) || (x_realm c =? (if x_protected c then t_aud (tk s o) else 0))) with true.
  2:{ cbv zeta in M. symmetry. apply orb_true_iff. destruct M as [-> | ->]; [left|right]; apply Z.eqb_refl. }
  cbn [andb]. rewrite andb_true_r.
  set (s1 := if negb (x_recv c) then announce (set_back r s) else set_back r s).
  assert (E1 : objs s1 = objs s /\ peers s1 = peers s /\ own s1 = own s /\ sess s1 = sess s /\ cur s1 = cu /\ mep s1 = mep s).
  { subst s1 cu. destruct (x_recv c); cbn [negb]; [cbn; auto 10|]. unfold announce. cbn [own set_back]. destruct (own s) eqn:Ow2; [congruence|]. cbn [hd]. repeat split; auto; reflexivity. }
  destruct E1 as (Eo & Ep & Ew & Es & Ec & Em). clearbody s1. pose proof (tk_objs s1 s Eo) as T.
  unfold add. destruct (T o) as (-> & _). replace (0 <? t_max (tk s o)) with true by lia.
  set (s0 := set_mep _ s1). assert (S0 : several (mep s0)). { subst s0. proj. rewrite Em. apply several_lor; auto. }
  replace (flag_cmp (Z.land (mep s0) (if x_recv c then 240 else 15)) (if x_recv c then 16 else 1)) with false.
  2:{ destruct (several_land (mep s0) (if x_recv c then 240 else 15) S0). destruct (x_recv c); auto. }
  match goal with |- context [if auth ?z o then update_session _ _ _ _ _ _ else _] => set (s2 := z) end.
  assert (R : (forall x, tk s2 x = tk s x) /\ own s2 = own s /\ sess s2 = sess s /\ cur s2 = cu /\ In o (peers s2) /\ auth s2 o = true).
  { subst s2. destruct (replace _ s0 o (peers s0)) as [[x l]|] eqn:Rp.
    - destruct (replace_spec _ _ _ _ _ _ Rp) as (I & Eq & a & b & El & -> & _).
      assert (L1 : (o < length (objs (set_peers (a ++ o :: b) s0)))%nat). { subst s0. proj. rewrite Eo. auto. }
      destruct (set_auth_facts (set_peers (a ++ o :: b) s0) o (auth s0 x) L1) as (T2 & _ & A2 & _).
      split; [intros y; rewrite T2; apply T|]. split; [exact Ew|]. split; [exact Es|]. split; [exact Ec|]. split; [apply in_or_app; right; left; auto|].
      rewrite A2. change (auth s0 x) with (auth s1 x). destruct (T x) as (_ & -> & _). destruct Eq as [->|Eq]; auto.
      apply exact_kx in Eq. change (tk s0 x) with (tk s1 x) in Eq. change (tk s0 o) with (tk s1 o) in Eq.
      destruct (T x) as (Tx & _). destruct (T o) as (To & _). rewrite Tx, To in Eq. destruct Eq. apply Pe; auto. subst s0. proj. rewrite Ep in I. auto.
    - split; [intros y; apply T|]. split; [exact Ew|]. split; [exact Es|]. split; [exact Ec|]. split; [apply in_or_app; right; left; auto|].
      destruct (T o) as (_ & <- & _) in Au. exact Au. }
  clearbody s2. destruct R as (T2 & W2 & E2 & C2 & I2 & A2). rewrite A2. unfold update_session. rewrite W2. destruct (own s) eqn:Ow'; [congruence|].
  rewrite !T2, !C2, !E2, N1, N2, Kx.
  replace (negb (x_recv c) && (t_fp (tk s o) =? cu)) with false. 2:{ destruct Q as [->|Q]; auto. symmetry. apply andb_false_iff. right. apply Z.eqb_neq. auto. }
  cbn [orb andb negb].
  match goal with |- context [obind (Ok ?z)] => set (s3 := z) end.
  assert (G : cur s3 = cu /\ peers s3 = peers s2 /\ auth s3 o = true /\ keyed s3 (tk s o)).
  { assert (K : forall z, cur z = cu -> sess z = put (initial_id (t_fp (tk s o)) cu) (mkSes SInitial (Intent_Model.Kx (t_kx (tk s o))) (Intent_Model.Kx (t_kx (tk s o))))
        (put (private_id (t_fp (tk s o)) cu) (mkSes SPrivate (Intent_Model.Kx (t_kx (tk s o))) (Intent_Model.Kx (t_kx (tk s o)))) (sess s)) -> keyed z (tk s o)).
    { intros z Z1 Z2. unfold keyed. rewrite Z1, Z2, !find_put, !Z.eqb_refl. split; auto. destruct (_ =? _) eqn:X; auto. apply Z.eqb_eq in X. congruence. }
    subst s3. destruct (x_recv c); [split; [exact C2|]; split; [reflexivity|]; split; [exact A2|apply K; auto]|].
    match goal with |- context [match find ?a ?b with Some _ => set_outbox _ _ | None => _ end] => destruct (find a b) end;
      (split; [exact C2|]; split; [reflexivity|]; split; [exact A2|apply K; auto]). }
  clearbody s3. destruct G as (G1 & G2 & G3 & G4). cbn [obind]. rewrite G3. exists s3. rewrite G2. auto.
Qed.

(** no undefined behaviour as long as there is an own intent *)
Definition ext (s s' : st) : Prop := (length (objs s) <= length (objs s'))%nat /\ forall o, (o < length (objs s))%nat -> tk s' o = tk s o.
Lemma ext_refl s : ext s s.
Proof. split; auto. Qed.
Lemma ext_trans a b c : ext a b -> ext b c -> ext a c.
Proof. intros [A B] [C D]. split; [lia|]. intros o L. rewrite D by lia. auto. Qed.
Lemma ext_objs s s' : objs s' = objs s -> ext s s'.
Proof. intros E. split; [rewrite E; auto|]. intros o _. apply tk_objs; auto. Qed.
Lemma update_ok recv e delete l o s : l <> [] -> exists s', update_session recv e delete l o s = Ok s' /\ own s' = own s /\ objs s' = objs s /\ peers s' = peers s.
Proof.
  intros N. unfold update_session. destruct l; [congruence|]. destruct (_ && _); [eauto|]. destruct delete; [eauto|]. destruct (_ && negb _); [eauto|].
  destruct (_ || _); [|eauto]. destruct recv; [eauto|]. 
  match goal with |- context [match find ?a ?b with Some _ => set_outbox _ _ | None => _ end] => destruct (find a b) end; eauto.
Qed.
Lemma handle_ok c e o s : own s <> [] -> (o < length (objs s))%nat -> exists s', handle_intent c e o s = Ok s' /\ own s' = own s /\ ext s s'.
Proof.
  intros N L. unfold handle_intent. destruct (_ && _); [|exists s; auto using ext_refl].
  set (s1 := if negb (x_recv c) && auth s o then announce s else s).
  assert (E1 : objs s1 = objs s /\ own s1 = own s). { subst s1; destruct (_ && _); auto. destruct (announce_mep s) as (_ & ? & _ & ? & _); auto. }
  destruct E1 as [Eo Ew]. clearbody s1.
  assert (A : exists s2, add c e o s1 = Ok s2 /\ own s2 = own s /\ ext s s2).
  { unfold add. set (s0 := set_mep _ s1). destruct (0 <? _); [|exists s0; split; auto; split; auto; apply ext_objs; auto].
    match goal with |- context [if auth ?z o then _ else _] => set (s2 := z) end.
    assert (R : own s2 = own s /\ ext s s2).
    { subst s2. destruct (replace _ s0 o (peers s0)) as [[x l]|].
      - split; [exact Ew|]. assert (L1 : (o < length (objs (set_peers l s0)))%nat). { subst s0. proj. rewrite Eo. auto. }
        destruct (set_auth_facts (set_peers l s0) o (auth s0 x) L1) as (T & _ & _ & _ & Le). split; [rewrite Le; subst s0; proj; rewrite Eo; auto|].
        intros y _. rewrite T. apply (tk_objs s1 s); auto.
      - split; [exact Ew|]. apply ext_objs; auto. }
    destruct R as [R1 R2]. clearbody s2. destruct (auth s2 o); [|eauto].
    destruct (update_ok (x_recv c) e false (own s2) o s2) as (s3 & U & U1 & U2 & _); [congruence|].
    rewrite U. exists s3. split; auto. split; [congruence|]. eapply ext_trans; eauto. apply ext_objs; auto. }
  destruct A as (s2 & -> & A1 & A2). cbn [obind]. destruct (auth s2 o); eexists; split; eauto.
Qed.
Section Fine.
Variables (c : conf) (H : list (env * ev)).
Definition fine_tok (t : tok) : Prop := forall e, In (e, Check) H -> e_valid e t = true.
Record Fine (s : st) : Prop := {
  f_own : own s <> [];
  f_tok : Forall (fun o => (o < length (objs s))%nat /\ fine_tok (tk s o)) (own s);
  f_ask : Forall (fun o => (o < length (objs s))%nat) (ask s);
  f_back : Forall (fun o => (o < length (objs s))%nat) (back s) }.
Lemma fine_ext s s' : Fine s -> own s' = own s -> ext s s' -> Forall (fun o => (o < length (objs s'))%nat) (ask s') -> Forall (fun o => (o < length (objs s'))%nat) (back s') -> Fine s'.
Proof.
  intros [] E [L T] A B. constructor; auto; rewrite E; auto. eapply Forall_impl; [|exact f_tok0]. intros o [X Y]. split; [lia|]. rewrite T by auto. auto.
Qed.
Lemma handle_queues e o s s' : handle_intent c e o s = Ok s' -> back s' = back s /\ (ask s' = ask s \/ ask s' = ask s ++ [o]).
Proof.
  unfold handle_intent. destruct (_ && _); [|intros [= <-]; auto].
  set (s1 := if negb (x_recv c) && auth s o then announce s else s).
  assert (E1 : back s1 = back s /\ ask s1 = ask s). { subst s1; destruct (_ && _); auto. unfold announce. destruct (own s); auto. }
  destruct E1 as [Eb Ea]. clearbody s1.
  destruct (add c e o s1) as [s2| |] eqn:A; cbn [obind]; try discriminate.
  assert (R : back s2 = back s /\ ask s2 = ask s).
  { revert A. unfold add. set (s0 := set_mep _ s1). destruct (0 <? _); [|intros [= <-]; auto].
    match goal with |- context [if auth ?z o then _ else _] => set (s3 := z) end.
    assert (R : back s3 = back s /\ ask s3 = ask s). { subst s3. destruct (replace _ s0 o (peers s0)) as [[x l]|]; auto. }
    destruct R as [R1 R2]. clearbody s3. destruct (auth s3 o); [|intros [= <-]; auto].
    unfold update_session. destruct (own s3); [discriminate|]. destruct (_ && _); [intros [= <-]; auto|]. destruct (_ && negb _); [intros [= <-]; auto|].
    destruct (_ || _); [|intros [= <-]; auto]. destruct (x_recv c); [intros [= <-]; auto|].
    match goal with |- context [match find ?a ?b with Some _ => set_outbox _ _ | None => _ end] => destruct (find a b) end; intros [= <-]; auto. }
  destruct R as [R0 R]. destruct (auth s2 o); intros [= <-]; auto. cbn. rewrite <- R. auto.
Qed.
Lemma step_fine x s : In x H -> (forall e t n, In (e, NewOwn t n) H -> fine_tok t) -> Fine s -> exists s', step c x s = Ok s' /\ Fine s'.
Proof.
  intros Ix Al F. destruct x as [e a].
  assert (Hd : forall s o, Fine s -> (o < length (objs s))%nat -> exists s', handle_intent c e o s = Ok s' /\ Fine s').
  { clear s F. intros s o F L. destruct (handle_ok c e o s (f_own _ F) L) as (s' & E & W & X). exists s'. split; auto.
    destruct (handle_queues _ _ _ _ E) as [B A]. destruct X as [Le T]. apply (fine_ext s); auto.
    - split; auto.
    - assert (G : Forall (fun o => (o < length (objs s'))%nat) (ask s)). { eapply Forall_impl; [|apply (f_ask _ F)]. cbn. intros; lia. }
      destruct A as [-> | ->]; auto. apply Forall_app. split; auto. constructor; auto. lia.
    - rewrite B. eapply Forall_impl; [|apply (f_back _ F)]. cbn. intros; lia. }
  destruct a; cbn [step].
  - destruct (e_valid e t); [|eauto]. apply Hd.
    + apply (fine_ext s); auto.
      * split; [proj; rewrite app_length; lia|]. intros o L. unfold tk, ob. proj. rewrite app_nth1; auto.
      * proj. rewrite app_length. eapply Forall_impl; [|apply (f_ask _ F)]. cbn. intros; lia.
      * proj. rewrite app_length. eapply Forall_impl; [|apply (f_back _ F)]. cbn. intros; lia.
    + proj. rewrite app_length. cbn. lia.
  - destruct (ask s) as [|o r] eqn:A; [eauto|]. pose proof (f_ask _ F) as Fa. rewrite A in Fa. inversion Fa; subst.
    assert (F1 : Fine (set_ask r s)). { apply (fine_ext s); auto. apply ext_objs; auto. apply (f_back _ F). }
    destruct (e_valid e _); [|eauto]. eexists. split; [reflexivity|]. unfold handle_authz. destruct (auth _ _); auto. destruct (_ && _); auto.
    destruct (set_auth_facts (set_ask r s) o true H2) as (T & _ & _ & _ & L).
    apply (fine_ext (set_ask r s)); auto.
    + split; [rewrite <- L; auto|]. intros y _. apply T.
    + change (Forall (fun o0 => (o0 < length (objs (set_auth o true (set_ask r s))))%nat) r). rewrite L. auto.
    + change (Forall (fun o0 => (o0 < length (objs (set_auth o true (set_ask r s))))%nat) (back s ++ [o])). rewrite L.
      apply Forall_app. split; [apply (f_back _ F)|constructor; auto].
  - destruct (back s) as [|o r] eqn:A; [eauto|]. pose proof (f_back _ F) as Fa. rewrite A in Fa. inversion Fa; subst.
    assert (F1 : Fine (set_back r s)). { apply (fine_ext s); auto. apply ext_objs; auto. apply (f_ask _ F). }
    destruct (e_valid e _); [|eauto]. apply Hd; auto.
  - assert (Ok_own : forall s, Fine s -> check_own c e s = Ok s).
    { intros z Fz. apply own_ok. eapply Forall_impl; [|apply (f_tok _ Fz)]. intros o [_ Ft]. apply Ft. auto. }
    assert (Ok_peers : exists s', check_peers c e s = Ok s' /\ Fine s').
    { unfold check_peers. destruct (first_invalid e s (peers s)) as [o|]; [|eauto].
      destruct (update_ok (x_recv c) e true (own s) o s (f_own _ F)) as (s1 & U & W & O & P). 
      assert (Q : ask s1 = ask s /\ back s1 = back s).
      { revert U. unfold update_session. destruct (own s); [discriminate|]. destruct (_ && _); intros [= <-]; auto. }
      rewrite U. cbn [obind]. eexists. split; [reflexivity|]. destruct Q as [Qa Qb].
      apply (fine_ext s); auto; [apply ext_objs; exact O| |]; proj; rewrite ?Qa, ?Qb, ?O; apply F. }
    unfold intent_check. destruct Ok_peers as (s' & E & F'). destruct (x_recv c).
    + rewrite E. cbn [obind]. exists s'. auto.
    + rewrite (Ok_own s F). cbn [obind]. eauto.
  - eexists. split; [reflexivity|]. unfold new_own.
    set (s1 := set_objs _ s).
    assert (F1 : Fine s1).
    { apply (fine_ext s); auto.
      * split; [subst s1; proj; rewrite app_length; lia|]. intros o L. subst s1. unfold tk, ob. proj. rewrite app_nth1; auto.
      * subst s1. proj. rewrite app_length. eapply Forall_impl; [|apply (f_ask _ F)]. cbn. intros; lia.
      * subst s1. proj. rewrite app_length. eapply Forall_impl; [|apply (f_back _ F)]. cbn. intros; lia. }
    assert (N1 : (length (objs s) < length (objs s1))%nat /\ fine_tok (tk s1 (length (objs s)))).
    { subst s1. unfold tk, ob. proj. rewrite app_length, app_nth2, Nat.sub_diag by lia. cbn. split; [lia|]. eapply Al; eauto. }
    set (s2 := match own s1 with [] => _ | _ => _ end).
    assert (F2 : Fine s2).
    { subst s2. destruct (own s1) eqn:Ow; [destruct F1; congruence|]. rewrite <- Ow.
      destruct (replace _ _ _ _) as [[y l']|] eqn:Rp; auto. destruct (replace_spec _ _ _ _ _ _ Rp) as (I & Eq & a & b & El & -> & _).
      destruct F1. constructor; proj; auto.
      - destruct a; discriminate.
      - rewrite El in f_tok0. apply Forall_app in f_tok0. destruct f_tok0 as [Fa Fb]. inversion Fb; subst. apply Forall_app. split; auto. }
    destruct (x_recv c); (destruct F2; constructor; proj; auto).
  - eexists. split; [reflexivity|]. unfold announce. destruct (own s); auto. apply (fine_ext s); auto; [apply ext_objs; auto| |]; apply F.
  - destruct (find _ _) as [se|]; [|eauto]. destruct (s_type se); eauto. destruct (x_recv c); eauto. eexists. split; [reflexivity|].
    apply (fine_ext s); auto; [apply ext_objs; auto| |]; apply F.
  - destruct (outbox s); [eauto|]. eexists. split; [reflexivity|]. destruct (find _ _); (apply (fine_ext s); auto; [apply ext_objs; auto| |]; apply F).
Qed.
Lemma run_fine h : incl h H -> (forall e t n, In (e, NewOwn t n) H -> fine_tok t) -> forall s, Fine s -> exists s', run c h s = Ok s' /\ Fine s'.
Proof.
  intros I Al. induction h as [|x h IH]; intros s F; cbn [run]; [eauto|].
  destruct (step_fine x s (I x (or_introl eq_refl)) Al F) as (s1 & -> & F1). cbn [obind]. apply IH; auto. intros y Iy. apply I. right; auto.
Qed.
End Fine.
