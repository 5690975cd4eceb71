From Verif Require Import Base Dhkey_Model Rbtree_Model Rbtree_Proofs Tree_Model Tree_Spec Tree_Proofs Ack_Model Ack_Spec.
From Coq Require Import List Lia Sorting.Sorted.

Notation TInv := (Inv rc_key_size rc_val_size Uuids).
Notation els s := (elements (root (handlers s))).
Definition eu (e : @elem rc) : uuid := key_uuid (fst e).

Lemma uuid_kind u : is_uuid u <-> of_kind Uuids (UUuid u).
Proof. reflexivity. Qed.

Lemma stored_uuid (e : @elem rc) : stored_elem Uuids e -> is_uuid (eu e) /\ fst e = KOther (UUuid (eu e)) /\ val e = eu e.
Proof.
  intros (u & Hu & E). destruct u as [s|i|d|ul|k|b]; try contradiction. unfold eu, val. rewrite E. cbn. auto.
Qed.

Lemma els_in m s u r : TInv m (handlers s) -> is_uuid u -> m (UUuid u) = Some r <-> In (KOther (UUuid u), r) (els s).
Proof. intros I Hu. apply (inv_map _ _ _ _ _ I (UUuid u) r Hu). Qed.

Lemma els_back m s e : TInv m (handlers s) -> In e (els s) -> is_uuid (eu e) /\ m (UUuid (eu e)) = Some (snd e).
Proof.
  intros I H. pose proof (inv_stored _ _ _ _ _ I) as F. rewrite Forall_forall in F. destruct (stored_uuid e (F e H)) as (U & K & _).
  split; [exact U|]. apply (els_in m s _ _ I U). rewrite <- K. destruct e. exact H.
Qed.

Lemma els_nodup m (t : @np_tree rc) : TInv m t -> NoDup (map eu (elements (root t))).
Proof.
  intros I. pose proof (inv_stored _ _ _ _ _ I) as F. pose proof (inv_sorted _ _ _ _ _ I) as S0.
  revert F S0. generalize (elements (root t)). induction l as [|e l IH]; intros F So; [constructor|].
  inversion F as [|? ? F1 F2]; subst. inversion So as [|? ? S1 S2]; subst. cbn. constructor; [|auto].
  intros H. apply in_map_iff in H as (x & E & Hx). rewrite Forall_forall in S2. specialize (S2 x Hx). cbn beta in S2.
  rewrite Forall_forall in F2. destruct (stored_uuid e F1) as (_ & _ & V1). destruct (stored_uuid x (F2 x Hx)) as (_ & _ & V2).
  rewrite V1, V2, E in S2. apply lt_neq in S2. congruence.
Qed.

Lemma uuid_eqb_spec a b : uuid_eqb a b = true <-> a = b.
Proof. unfold uuid_eqb. destruct (list_eq_dec Z.eq_dec a b); split; congruence. Qed.

(** ** The tree under each step *)
Lemma insert_present m (t : @np_tree rc) u v w : TInv m t -> is_uuid u -> m (UUuid u) = Some w ->
  np_tree_insert no_rc rc_key_size rc_val_size (UUuid u) v t = Ok t.
Proof. intros I Hu E. unfold np_tree_insert. rewrite (find_spec no_rc _ _ Uuids m t (UUuid u) I Hu), E. reflexivity. Qed.

Lemma mark_root m s b : TInv m (handlers s) ->
  match els s with
  | [] => in_ack (Bin b) s = Ok s
  | _ => exists e h', In e (els s) /\ (forall b', in_ack (Bin b') s = Ok (set_handlers h' s)) /\
      (exists A B, els s = A ++ e :: B /\ elements (root h') = A ++ (fst e, mkRc (r_msg (snd e)) (r_expires (snd e)) (now s)) :: B) /\
      TInv (fun k => if ukey_eq_dec k (UUuid (eu e)) then Some (mkRc (r_msg (snd e)) (r_expires (snd e)) (now s)) else m k) h'
  end.
Proof.
  intros I. unfold in_ack. destruct (handlers s) as [r cn by_ im] eqn:Eh. cbn [root count bytes immutable] in *.
  destruct r as [|c l e r].
  - cbn [elements]. destruct s; cbn in *. subst. reflexivity.
  - assert (He : In e (elements (Node c l e r))) by (cbn; apply in_or_app; right; left; reflexivity).
    pose proof (inv_stored _ _ _ _ _ I) as F. rewrite Forall_forall in F. destruct (stored_uuid e (F e He)) as (U & K & V1).
    set (v := mkRc (r_msg (snd e)) (r_expires (snd e)) (now s)).
    destruct (elements (Node c l e r)) eqn:Ee; [destruct He|]. rewrite <- Ee in *. clear Ee.
    exists e, (mkTree (Node c l (fst e, v) r) cn by_ im). split; [exact He|]. split; [|split].
    + intros b'. unfold find_update. cbn [descend].
      assert (C0 : elem_cmp (search no_rc (UStr b')) e = 0) by (unfold elem_cmp, search; cbn [fst search_key]; rewrite K; reflexivity).
      rewrite C0. cbn. reflexivity.
    + exists (elements l), (elements r). split; reflexivity.
    + destruct (replace_step no_rc rc_key_size rc_val_size Uuids m _ (UUuid (eu e)) v I U) as (t' & Et & It).
      assert (t' = mkTree (Node c l (fst e, v) r) cn by_ im) as <-; [|exact It].
      unfold np_tree_replace in Et. rewrite (find_spec no_rc _ _ Uuids m _ (UUuid (eu e)) I U) in Et.
      assert (Hm : m (UUuid (eu e)) = Some (snd e)).
      { apply (inv_map _ _ _ _ _ I (UUuid (eu e)) (snd e) U). cbn [stored_key]. rewrite <- K. destruct e. exact He. }
      rewrite Hm in Et. pose proof (inv_mutable _ _ _ _ _ I) as Im. cbn [immutable] in Im. subst im. cbn [immutable root count bytes] in Et.
      injection Et as <-. f_equal.
      * unfold find_update. cbn [descend].
        assert (C0 : elem_cmp (search no_rc (UUuid (eu e))) e = 0).
        { unfold elem_cmp, search. cbn [fst search_key]. rewrite K. cbn [key_cmp].
          assert (M : forall z, memcmp z z = 0) by (induction z; cbn; [|rewrite Z.eqb_refl]; auto). rewrite M. reflexivity. }
        rewrite C0. cbn. reflexivity.
      * pose proof (inv_bytes _ _ _ _ _ I) as Hb. cbn [bytes] in Hb. unfold elem_size, rc_key_size, rc_val_size.
        rewrite u64_plus. replace (by_ - (16 + 8) + (16 + 8)) with by_ by lia. rewrite Hb. unfold u64. rewrite Zmod_mod. reflexivity.
Qed.

(** ** The check of the handlers *)
Lemma visit_in n t : forall l e r, In (e, r) (visit n t l) ->
  In e l /\ (r = TimedOut /\ r_expires (snd e) < t \/ r = Answered /\ t <= r_expires (snd e) /\ r_received (snd e) <> 0).
Proof.
  induction n as [|n IH]; intros l; destruct l as [|e0 l]; intros e r H; cbn [visit] in H; try (destruct H; fail);
  (destruct (r_expires (snd e0) <? t) eqn:E1;
   [apply Z.ltb_lt in E1; destruct H as [H|H]; [injection H as <- <-; split; [left; reflexivity|left; auto]|]
   |apply Z.ltb_ge in E1; destruct (r_received (snd e0) =? 0) eqn:E2;
     [|apply Z.eqb_neq in E2; destruct H as [H|H]; [injection H as <- <-; split; [left; reflexivity|right; auto]|]]]);
  try (destruct H; fail); apply IH in H as [H1 H2]; (split; [right; exact H1|exact H2]).
Qed.

Lemma visit_nodup {B} (f : @elem rc -> B) n t : forall l, NoDup (map f l) -> NoDup (map (fun x => f (fst x)) (visit n t l)).
Proof.
  assert (C : forall e n0 l r, ~ In (f e) (map f l) -> NoDup (map (fun x => f (fst x)) (visit n0 t l)) ->
    NoDup (map (fun x => f (fst x)) ((e, r) :: visit n0 t l))).
  { intros e n0 l r N0 H. cbn [map fst]. constructor; [|exact H]. intros C. apply in_map_iff in C as ([x r'] & E & C).
    apply visit_in in C as [C _]. apply N0. rewrite <- E. apply in_map. exact C. }
  assert (C1 : forall e r, NoDup (map (fun x : @elem rc * result => f (fst x)) [(e, r)])) by (intros; cbn; repeat constructor; auto).
  induction n as [|n IH]; intros l H; destruct l as [|e0 l]; cbn [visit]; try (constructor; fail); inversion H as [|? ? N0 H0]; subst;
  (destruct (r_expires (snd e0) <? t); [|destruct (r_received (snd e0) =? 0)]); auto; constructor.
Qed.

Lemma visit_first n t : forall l e, In e (firstn (S n) l) -> r_expires (snd e) < t -> In (e, TimedOut) (visit n t l).
Proof.
  induction n as [|n IH]; intros l e H E; destruct l as [|e0 l]; try (destruct H; fail); cbn [visit].
  - cbn in H. destruct H as [->|[]]. apply Z.ltb_lt in E. rewrite E. left. reflexivity.
  - change (firstn (S (S n)) (e0 :: l)) with (e0 :: firstn (S n) l) in H. destruct H as [->|H].
    + apply Z.ltb_lt in E. rewrite E. left. reflexivity.
    + specialize (IH l e H E). destruct (r_expires (snd e0) <? t); [right; exact IH|].
      destruct (r_received (snd e0) =? 0); [exact IH|right; exact IH].
Qed.

Lemma visit_quiet n t : forall l, (forall e, In e l -> t <= r_expires (snd e) /\ r_received (snd e) = 0) -> visit n t l = [].
Proof.
  induction n as [|n IH]; intros l H; destruct l as [|e l]; try reflexivity; cbn [visit];
  destruct (H e (or_introl eq_refl)) as [H1 H2]; apply Z.ltb_ge in H1; rewrite H1, H2; cbn; auto. apply IH. intros x Hx. apply H. right. exact Hx.
Qed.

(** Only the first [S n] are looked at *)
Lemma visit_firstn n t : forall l, visit n t l = visit n t (firstn (S n) l).
Proof.
  induction n as [|n IH]; intros l; destruct l as [|e l]; try reflexivity.
  change (firstn (S (S n)) (e :: l)) with (e :: firstn (S n) l). cbn [visit]. rewrite <- IH. reflexivity.
Qed.

Lemma visit_one n t A e B : (forall x, In x A \/ In x B -> t <= r_expires (snd x) /\ r_received (snd x) = 0) ->
  (length A <= n)%nat -> t <= r_expires (snd e) -> r_received (snd e) <> 0 -> visit n t (A ++ e :: B) = [(e, Answered)].
Proof.
  revert n. induction A as [|a A IH]; intros n H L E1 E2.
  - cbn [app]. destruct n; cbn [visit]; apply Z.ltb_ge in E1; apply Z.eqb_neq in E2; rewrite E1, E2; [reflexivity|].
    rewrite visit_quiet; [reflexivity|]. auto.
  - cbn [length] in L. destruct n as [|n]; [lia|]. cbn [app visit]. destruct (H a) as [H1 H2]; [left; left; reflexivity|].
    apply Z.ltb_ge in H1. rewrite H1, H2. cbn. apply IH; auto; [|lia]. intros x [Hx|Hx]; apply H; [left; right|right]; exact Hx.
Qed.

Definition minus (m : ukey -> option rc) (l : list uuid) : ukey -> option rc := fun k =>
  match k with UUuid u => if in_dec (list_eq_dec Z.eq_dec) u l then None else m k | _ => m k end.

Lemma remove_all_spec l : forall m h, TInv m h -> (forall e r, In (e, r) l -> is_uuid (eu e)) ->
  exists h', remove_all l h = Ok h' /\ TInv (minus m (map (fun x => eu (fst x)) l)) h'.
Proof.
  induction l as [|[e r] l IH]; intros m h I H; cbn [remove_all].
  - exists h. split; [reflexivity|]. eapply inv_ext; [|exact I]. intros u Hu. destruct u; reflexivity.
  - assert (U : is_uuid (eu e)) by (eapply H; left; reflexivity).
    destruct (delete_step no_rc rc_key_size rc_val_size Uuids m h (UUuid (eu e)) I U) as (h1 & E1 & I1).
    unfold eu in E1. rewrite E1. cbn [obind].
    destruct (IH _ _ I1 (fun e' r' X => H e' r' (or_intror X))) as (h' & E & I'). exists h'. split; [exact E|].
    eapply inv_ext; [|exact I']. intros u Hu. destruct u as [z|i|d|ul|k|b]; try reflexivity. unfold minus.
    cbn [map fst]. destruct (in_dec (list_eq_dec Z.eq_dec) b (map (fun x => eu (fst x)) l)) as [J|J];
      destruct (in_dec (list_eq_dec Z.eq_dec) b (eu e :: map (fun x => eu (fst x)) l)) as [J'|J']; try reflexivity.
    + exfalso. apply J'. right. exact J.
    + destruct (ukey_eq_dec (UUuid b) (UUuid (eu e))) as [Q|Q]; [reflexivity|]. exfalso. destruct J' as [J'|J']; congruence.
    + destruct (ukey_eq_dec (UUuid b) (UUuid (eu e))) as [Q|Q]; [|reflexivity]. exfalso. apply J'. left. congruence.
Qed.

Lemma settle_spec l : forall s,
  settle l s = mkSender (now s) (handlers s)
    (filter (fun c => negb (existsb (fun x => r_msg (snd (fst x)) && uuid_eqb (c_uuid c) (eu (fst x))) l)) (copies s))
    (sent s) (results s ++ map (fun x => (eu (fst x), snd x)) l).
Proof.
  induction l as [|[e r] l IH]; intros s; cbn [settle].
  - cbn. rewrite app_nil_r. assert (E : filter (fun _ : copy => true) (copies s) = copies s).
    { induction (copies s) as [|c cs IHc]; cbn; [|rewrite IHc]; reflexivity. } rewrite E. destruct s; reflexivity.
  - rewrite IH. cbn [now handlers copies sent results map fst snd existsb]. rewrite <- app_assoc. cbn [app]. f_equal.
    destruct (r_msg (snd e)) eqn:Er; cbn [andb]; [|reflexivity].
    unfold drop_copy. induction (copies s) as [|c cs IHc]; [reflexivity|]. cbn [filter]. fold (eu e) in *.
    destruct (uuid_eqb (c_uuid c) (eu e)) eqn:Eq; cbn [negb orb]; [exact IHc|]. cbn [filter]. rewrite IHc. reflexivity.
Qed.

(** ** Sending again *)
Lemma existsb_copy u l : existsb (fun c => uuid_eqb (c_uuid c) u) l = true <-> In u (map c_uuid l).
Proof.
  rewrite existsb_exists, in_map_iff. split; intros (c & H1 & H2); exists c.
  - apply uuid_eqb_spec in H2. auto.
  - subst. split; [exact H2|]. apply uuid_eqb_spec. reflexivity.
Qed.

Lemma resend_spec l : forall m s, TInv m (handlers s) ->
  (forall c, In c l -> is_uuid (c_uuid c) /\ (exists r, m (UUuid (c_uuid c)) = Some r) /\ In (c_uuid c) (map c_uuid (copies s))) ->
  resend l s = Ok (mkSender (now s) (handlers s) (copies s) (sent s ++ map (fun c => (c_uuid c, c_at c)) l) (results s)).
Proof.
  induction l as [|c l IH]; intros m s I H; cbn [resend].
  - cbn. rewrite app_nil_r. destruct s; reflexivity.
  - destruct (H c (or_introl eq_refl)) as (U & (r & Em) & Hc). unfold out_message, add_response_handler.
    rewrite (insert_present m _ _ _ r I U Em). cbn [obind]. unfold set_handlers, redelivery_set. cbn [copies now handlers sent results].
    apply existsb_copy in Hc. rewrite Hc. cbn [copies now handlers sent results].
    rewrite (IH m); cbn [copies now handlers sent results]; [|exact I|intros x Hx; apply H; right; exact Hx].
    rewrite <- app_assoc. reflexivity.
Qed.

(** ** Histories *)
Lemma started_app h1 h2 : started (h1 ++ h2) = started h1 ++ started h2.
Proof. induction h1 as [|o h1 IH]; [reflexivity|]. cbn [app started]. destruct (start o); [cbn; rewrite IH|exact IH]; reflexivity. Qed.

Lemma deadline_app h1 h2 u : In u (started h1) -> deadline (h1 ++ h2) u = deadline h1 u.
Proof.
  induction h1 as [|o h1 IH]; intros H; [destruct H|]. cbn [app started] in *.
  destruct o; cbn [start deadline] in *; auto;
  match goal with |- context [list_eq_dec Z.eq_dec ?v u] => destruct (list_eq_dec Z.eq_dec v u) as [E|N] end; auto;
  apply IH; destruct H; congruence.
Qed.
Lemma deadline_new h1 h2 u : ~ In u (started h1) -> deadline (h1 ++ h2) u = deadline h2 u.
Proof.
  induction h1 as [|o h1 IH]; intros H; [reflexivity|]. cbn [app started] in *.
  destruct o; cbn [start deadline] in *; auto;
  match goal with |- context [list_eq_dec Z.eq_dec ?v u] => destruct (list_eq_dec Z.eq_dec v u) as [E|N] end; cbn in H; auto;
  exfalso; apply H; auto.
Qed.

Lemma send_started h u t ttl iv : In (Send u t ttl iv) h -> In u (started h).
Proof.
  induction h as [|o h IH]; intros H; [destruct H|]. cbn [started]. destruct H as [->|H].
  - left. reflexivity.
  - destruct (start o); [right|]; auto.
Qed.
Lemma send_deadline h u t ttl iv : NoDup (started h) -> In (Send u t ttl iv) h -> deadline h u = t + ttl.
Proof.
  induction h as [|o h IH]; intros N H; [destruct H|]. destruct H as [->|H].
  - cbn. destruct (list_eq_dec Z.eq_dec u u); congruence.
  - pose proof (send_started _ _ _ _ _ H) as Hs. destruct o; cbn [started start deadline] in *; auto; inversion N; subst;
    match goal with |- context [list_eq_dec Z.eq_dec ?v u] => destruct (list_eq_dec Z.eq_dec v u) as [E|N0] end;
    auto; congruence.
Qed.
Lemma ping_deadline h u t ttl : NoDup (started h) -> In (Ping u t ttl) h -> deadline h u = t + ttl.
Proof.
  assert (P : forall h', In (Ping u t ttl) h' -> In u (started h')).
  { induction h' as [|o h' IH]; intros H; [destruct H|]. cbn [started]. destruct H as [->|H]; [left; reflexivity|].
    destruct (start o); [right|]; auto. }
  induction h as [|o h IH]; intros N H; [destruct H|]. destruct H as [->|H].
  - cbn. destruct (list_eq_dec Z.eq_dec u u); congruence.
  - pose proof (P _ H) as Hs. destruct o; cbn [started start deadline] in *; auto; inversion N; subst;
    match goal with |- context [list_eq_dec Z.eq_dec ?v u] => destruct (list_eq_dec Z.eq_dec v u) as [E|N0] end;
    auto; congruence.
Qed.
Lemma send_inj h u t ttl iv t' ttl' iv' : NoDup (started h) -> In (Send u t ttl iv) h -> In (Send u t' ttl' iv') h ->
  t = t' /\ ttl = ttl' /\ iv = iv'.
Proof.
  induction h as [|o h IH]; intros N H H'; [destruct H|].
  destruct H as [->|H], H' as [E|H'].
  - injection E. auto.
  - exfalso. cbn [started start] in N. inversion N as [|? ? N0 _]; subst. apply N0. eapply send_started; eauto.
  - exfalso. subst o. cbn [started start] in N. inversion N as [|? ? N0 _]; subst. apply N0. eapply send_started; eauto.
  - apply IH; auto. cbn [started] in N. destruct (start o); [inversion N|]; auto.
Qed.

Lemma fair_app h1 h2 : fair (h1 ++ h2) -> fair h1.
Proof.
  intros (N & F & T). rewrite started_app in N, F. apply Forall_app in F as [F _]. split; [|split; [exact F|]].
  - clear - N. induction (started h1); [constructor|]. cbn in N. inversion N as [|? ? N0 N1]; subst. constructor; auto.
    intros H. apply N0. apply in_or_app. auto.
  - intros d Hd. apply T. apply in_or_app. auto.
Qed.
Lemma fair_snoc h o u : fair (h ++ [o]) -> start o = Some u -> ~ In u (started h) /\ is_uuid u.
Proof.
  intros (N & F & _) E. rewrite started_app in N, F. cbn in N, F. rewrite E in N, F. split.
  - apply NoDup_remove_2 in N. rewrite app_nil_r in N. exact N.
  - apply Forall_app in F as [_ F]. inversion F; auto.
Qed.

Lemma stamps_app s u x : stamps s u ++ map snd (filter (fun e => if list_eq_dec Z.eq_dec (fst e) u then true else false) x) =
  map snd (filter (fun e => if list_eq_dec Z.eq_dec (fst e) u then true else false) (sent s ++ x)).
Proof. unfold stamps. rewrite filter_app, map_app. reflexivity. Qed.

Lemma progression_S t iv n : progression t iv (S n) = progression t iv n ++ [t + Z.of_nat n * iv].
Proof. unfold progression. rewrite seq_S, map_app. reflexivity. Qed.

(** ** The invariant *)
Record good (h : list op) (s : sender) (m : ukey -> option rc) : Prop := {
  g_tree : TInv m (handlers s);
  g_now : 0 < now s;
  g_uuid : Forall is_uuid (started h);
  g_nodup : NoDup (started h);
  g_open : forall u r, is_uuid u -> m (UUuid u) = Some r -> In u (started h) /\ ~ reported s u /\ r_expires r = deadline h u /\
             (r_msg r = true <-> In u (map c_uuid (copies s)));
  g_cover : forall u, In u (started h) -> ~ reported s u -> exists r, m (UUuid u) = Some r;
  g_once : NoDup (map fst (results s));
  g_rep : incl (map fst (results s)) (started h);
  g_cnd : NoDup (map c_uuid (copies s));
  g_copy : forall c, In c (copies s) -> In (Send (c_uuid c) (c_sendat c) (c_ttl c) (c_iv c)) h /\ ~ reported s (c_uuid c) /\
             c_at c = c_sendat c + Z.of_nat (length (stamps s (c_uuid c))) * c_iv c;
  g_msg : forall u t ttl iv, In (Send u t ttl iv) h -> ~ reported s u -> In u (map c_uuid (copies s));
  g_stamp : forall u t ttl iv, In (Send u t ttl iv) h -> exists k, stamps s u = progression t iv (S k);
  g_past : forall u t ttl iv x, In (Send u t ttl iv) h -> In x (stamps s u) -> x = t \/ x < now s;
  g_known : forall u, stamps s u <> [] -> In u (started h);
  g_late : forall u, In (u, TimedOut) (results s) -> deadline h u < now s;
  g_ack : (forall u r, is_uuid u -> m (UUuid u) = Some r -> r_received r <> 0 -> exists f, In (Ack f) h) /\
          (forall u, In (u, Answered) (results s) -> exists f, In (Ack f) h) }.

Lemma good_init t : 0 < t -> good [] (init t) no_bindings.
Proof.
  intros H. split; cbn; try (intros; contradiction); try (constructor; fail); auto.
  - apply inv_empty. reflexivity.
  - discriminate.
  - intros x [].
  - split; [discriminate|intros; contradiction].
Qed.

Definition pick (u : uuid) (x : list (uuid * Z)) : list Z :=
  map snd (filter (fun e => if list_eq_dec Z.eq_dec (fst e) u then true else false) x).
Lemma stamps_more s s' x u : sent s' = sent s ++ x -> stamps s' u = stamps s u ++ pick u x.
Proof. intros E. unfold stamps, pick. rewrite E, filter_app, map_app. reflexivity. Qed.

Lemma pick_eq u t : pick u [(u, t)] = [t].
Proof. unfold pick. cbn [filter fst]. destruct (list_eq_dec Z.eq_dec u u); [reflexivity|congruence]. Qed.
Lemma pick_ne u v t : v <> u -> pick v [(u, t)] = [].
Proof. intros N. unfold pick. cbn [filter fst]. destruct (list_eq_dec Z.eq_dec u v); [congruence|reflexivity]. Qed.

Lemma in_send_snoc h o u t ttl iv : In (Send u t ttl iv) (h ++ [o]) -> In (Send u t ttl iv) h \/ o = Send u t ttl iv.
Proof. intros H. apply in_app_or in H as [H|[H|[]]]; auto. Qed.

Lemma started_none h o : start o = None -> started (h ++ [o]) = started h.
Proof. intros E. rewrite started_app. cbn. rewrite E. apply app_nil_r. Qed.
Lemma started_some h o u : start o = Some u -> started (h ++ [o]) = started h ++ [u].
Proof. intros E. rewrite started_app. cbn. rewrite E. reflexivity. Qed.

Lemma map_fresh h s m u : good h s m -> is_uuid u -> ~ In u (started h) -> m (UUuid u) = None.
Proof. intros G U N. destruct (m (UUuid u)) eqn:E; [|reflexivity]. exfalso. apply N. eapply g_open; eauto. Qed.

Lemma copy_started h s m c : good h s m -> In c (copies s) -> In (c_uuid c) (started h).
Proof. intros G H. eapply send_started. exact (proj1 (g_copy _ _ _ G c H)). Qed.

Ltac ueq := match goal with |- context [ukey_eq_dec ?a ?b] => destruct (ukey_eq_dec a b) as [?|?] | H : context [ukey_eq_dec ?a ?b] |- _ => destruct (ukey_eq_dec a b) as [?|?] end.

Lemma good_send h s m u t ttl iv : good h s m -> fair (h ++ [Send u t ttl iv]) ->
  exists s' m', step (Send u t ttl iv) s = Ok s' /\ good (h ++ [Send u t ttl iv]) s' m'.
Proof.
  intros G Fa. set (o := Send u t ttl iv) in *. destruct (fair_snoc h o u Fa eq_refl) as [Fr U].
  pose proof (map_fresh h s m u G U Fr) as Mu. pose proof (started_some h o u eq_refl) as St.
  destruct (insert_step no_rc rc_key_size rc_val_size Uuids m (handlers s) (UUuid u) (mkRc true (t + ttl) 0) (g_tree _ _ _ G) U) as (t' & Et & It).
  cbn [step o]. unfold out_message, add_response_handler. rewrite Et. cbn [obind]. unfold redelivery_set, set_handlers. cbn [copies now handlers sent results].
  assert (Nc : ~ In u (map c_uuid (copies s))).
  { intros H. apply in_map_iff in H as (c & E & Hc). apply Fr. rewrite <- E. eapply copy_started; eauto. }
  destruct (existsb (fun c => uuid_eqb (c_uuid c) u) (copies s)) eqn:Ex; [apply existsb_copy in Ex; contradiction|].
  cbn [copies now handlers sent results]. eexists _, _. split; [reflexivity|].
  set (s' := mkSender _ _ _ _ _). cbv beta in It.
  assert (Hs : forall v, stamps s' v = stamps s v ++ pick v [(u, t)]) by (intros v; apply stamps_more; reflexivity).
  assert (Hu : stamps s' u = [t]).
  { rewrite Hs, pick_eq. destruct (stamps s u) eqn:E; [reflexivity|]. exfalso. apply Fr. apply (g_known _ _ _ G). congruence. }
  assert (Ho : forall v, v <> u -> stamps s' v = stamps s v).
  { intros v N. rewrite Hs, pick_ne by exact N. apply app_nil_r. }
  assert (Nr : ~ In u (map fst (results s))) by (intros H; apply Fr; apply (g_rep _ _ _ G); exact H).
  assert (Hd : forall v, In v (started h) -> deadline (h ++ [o]) v = deadline h v) by (intros; apply deadline_app; auto).
  split; fold o.
  - exact It.
  - exact (g_now _ _ _ G).
  - exact (proj1 (proj2 Fa)).
  - exact (proj1 Fa).
  - intros v r V E. cbv beta in E. destruct (ukey_eq_dec (UUuid v) (UUuid u)) as [Q|Q].
    + injection Q as ->. rewrite Mu in E. injection E as <-. rewrite St. split; [apply in_or_app; right; left; reflexivity|].
      split; [exact Nr|]. split; [cbn [r_expires]; rewrite deadline_new by exact Fr; cbn [deadline o]; destruct (list_eq_dec Z.eq_dec u u); congruence|].
      cbn. rewrite map_app. split; [intros _; apply in_or_app; right; left; reflexivity|auto].
    + destruct (g_open _ _ _ G v r V E) as (A1 & A2 & A3 & A4). split; [rewrite St; apply in_or_app; auto|]. split; [exact A2|].
      split; [rewrite Hd; auto|]. cbn. rewrite map_app, A4. split; intros H; [apply in_or_app; auto|].
      apply in_app_or in H as [H|[H|[]]]; [exact H|cbn in H; congruence].
  - intros v Hv Nv. cbv beta. destruct (ukey_eq_dec (UUuid v) (UUuid u)) as [Q|Q].
    + injection Q as ->. rewrite Mu. eauto.
    + rewrite St in Hv. apply in_app_or in Hv as [Hv|[Hv|[]]]; [|congruence]. apply (g_cover _ _ _ G); auto.
  - exact (g_once _ _ _ G).
  - intros x Hx. rewrite St. apply in_or_app. left. apply (g_rep _ _ _ G). exact Hx.
  - cbn. rewrite map_app. cbn. apply NoDup_rev in Nc || idtac. assert (ND := g_cnd _ _ _ G).
    clear - ND Nc. induction (map c_uuid (copies s)) as [|a l IH]; cbn; [repeat constructor; auto|].
    inversion ND; subst. constructor; [|apply IH; auto; intros H; apply Nc; right; exact H].
    intros H. apply in_app_or in H as [H|[H|[]]]; [contradiction|]. subst. apply Nc. left. reflexivity.
  - intros c Hc. cbn in Hc. apply in_app_or in Hc as [Hc|[Hc|[]]].
    + destruct (g_copy _ _ _ G c Hc) as (A1 & A2 & A3). split; [apply in_or_app; auto|]. split; [exact A2|].
      rewrite Ho; [exact A3|]. intros E. apply Nc. rewrite <- E. apply in_map. exact Hc.
    + subst c. cbn [c_uuid c_sendat c_ttl c_iv c_at]. split; [apply in_or_app; right; left; reflexivity|]. split; [exact Nr|]. rewrite Hu. cbn [length]. lia.
  - intros v t0 ttl0 iv0 H N. cbn. rewrite map_app. apply in_or_app. apply in_send_snoc in H as [H|H].
    + left. eapply (g_msg _ _ _ G); eauto.
    + injection H as -> -> -> ->. right. left. reflexivity.
  - intros v t0 ttl0 iv0 H. apply in_send_snoc in H as [H|H].
    + rewrite Ho; [eapply (g_stamp _ _ _ G); eauto|]. intros ->. apply Fr. eapply send_started; eauto.
    + injection H as -> -> -> ->. exists O. rewrite Hu. unfold progression. cbn. f_equal. lia.
  - intros v t0 ttl0 iv0 x H Hx. apply in_send_snoc in H as [H|H].
    + rewrite Ho in Hx; [eapply (g_past _ _ _ G); eauto|]. intros ->. apply Fr. eapply send_started; eauto.
    + injection H as -> -> -> ->. rewrite Hu in Hx. destruct Hx as [Hx|[]]. auto.
  - intros v H. rewrite St. apply in_or_app. destruct (list_eq_dec Z.eq_dec v u) as [->|N]; [right; left; reflexivity|].
    left. apply (g_known _ _ _ G). rewrite <- Ho; auto.
  - intros v Hv. cbn in Hv |- *. rewrite Hd; [apply (g_late _ _ _ G); exact Hv|]. apply (g_rep _ _ _ G). apply in_map_iff. exists (v, TimedOut). auto.
  - destruct (g_ack _ _ _ G) as [A1 A2]. split.
    + intros v r V E R. cbv beta in E. destruct (ukey_eq_dec (UUuid v) (UUuid u)) as [Q|Q].
      * injection Q as ->. rewrite Mu in E. injection E as <-. cbn in R. congruence.
      * destruct (A1 v r V E R) as (f & Hf). exists f. apply in_or_app. auto.
    + intros v Hv. destruct (A2 v Hv) as (f & Hf). exists f. apply in_or_app. auto.
Qed.

Lemma good_ping h s m u t ttl : good h s m -> fair (h ++ [Ping u t ttl]) ->
  exists s' m', step (Ping u t ttl) s = Ok s' /\ good (h ++ [Ping u t ttl]) s' m'.
Proof.
  intros G Fa. set (o := Ping u t ttl) in *. destruct (fair_snoc h o u Fa eq_refl) as [Fr U].
  pose proof (map_fresh h s m u G U Fr) as Mu. pose proof (started_some h o u eq_refl) as St.
  destruct (insert_step no_rc rc_key_size rc_val_size Uuids m (handlers s) (UUuid u) (mkRc false (t + ttl) 0) (g_tree _ _ _ G) U) as (t' & Et & It).
  cbn [step o]. unfold add_response_handler. rewrite Et. cbn [obind].
  eexists _, _. split; [reflexivity|]. set (s' := set_handlers _ _). cbv beta in It.
  assert (Nc : ~ In u (map c_uuid (copies s))).
  { intros H. apply in_map_iff in H as (c & E & Hc). apply Fr. rewrite <- E. eapply copy_started; eauto. }
  assert (Nr : ~ In u (map fst (results s))) by (intros H; apply Fr; apply (g_rep _ _ _ G); exact H).
  assert (Hd : forall v, In v (started h) -> deadline (h ++ [o]) v = deadline h v) by (intros; apply deadline_app; auto).
  assert (Hs : forall v t0 ttl0 iv0, In (Send v t0 ttl0 iv0) (h ++ [o]) -> In (Send v t0 ttl0 iv0) h).
  { intros v t0 ttl0 iv0 H. apply in_send_snoc in H as [H|H]; [exact H|discriminate H]. }
  split; fold o.
  - exact It.
  - exact (g_now _ _ _ G).
  - exact (proj1 (proj2 Fa)).
  - exact (proj1 Fa).
  - intros v r V E. cbv beta in E. destruct (ukey_eq_dec (UUuid v) (UUuid u)) as [Q|Q].
    + injection Q as ->. rewrite Mu in E. injection E as <-. rewrite St. split; [apply in_or_app; right; left; reflexivity|].
      split; [exact Nr|]. split; [cbn [r_expires]; rewrite deadline_new by exact Fr; cbn [deadline o]; destruct (list_eq_dec Z.eq_dec u u); congruence|].
      cbn. split; [discriminate|]. intros H. contradiction.
    + destruct (g_open _ _ _ G v r V E) as (A1 & A2 & A3 & A4). split; [rewrite St; apply in_or_app; auto|]. split; [exact A2|].
      split; [rewrite Hd; auto|]. exact A4.
  - intros v Hv Nv. cbv beta. destruct (ukey_eq_dec (UUuid v) (UUuid u)) as [Q|Q].
    + injection Q as ->. rewrite Mu. eauto.
    + rewrite St in Hv. apply in_app_or in Hv as [Hv|[Hv|[]]]; [|congruence]. apply (g_cover _ _ _ G); auto.
  - exact (g_once _ _ _ G).
  - intros x Hx. rewrite St. apply in_or_app. left. apply (g_rep _ _ _ G). exact Hx.
  - exact (g_cnd _ _ _ G).
  - intros c Hc. destruct (g_copy _ _ _ G c Hc) as (A1 & A2 & A3). split; [apply in_or_app; auto|]. split; [exact A2|]. exact A3.
  - intros v t0 ttl0 iv0 H N. eapply (g_msg _ _ _ G); eauto.
  - intros v t0 ttl0 iv0 H. eapply (g_stamp _ _ _ G); eauto.
  - intros v t0 ttl0 iv0 x H Hx. eapply (g_past _ _ _ G); eauto.
  - intros v H. rewrite St. apply in_or_app. left. apply (g_known _ _ _ G). exact H.
  - intros v Hv. cbn in Hv |- *. rewrite Hd; [apply (g_late _ _ _ G); exact Hv|]. apply (g_rep _ _ _ G). apply in_map_iff. exists (v, TimedOut). auto.
  - destruct (g_ack _ _ _ G) as [A1 A2]. split.
    + intros v r V E R. cbv beta in E. destruct (ukey_eq_dec (UUuid v) (UUuid u)) as [Q|Q].
      * injection Q as ->. rewrite Mu in E. injection E as <-. cbn in R. congruence.
      * destruct (A1 v r V E R) as (f & Hf). exists f. apply in_or_app. auto.
    + intros v Hv. destruct (A2 v Hv) as (f & Hf). exists f. apply in_or_app. auto.
Qed.

(** Steps that start nothing *)
Lemma good_quiet h s m o s' m' : good h s m -> start o = None ->
  TInv m' (handlers s') -> now s <= now s' -> sent s' = sent s -> copies s' = copies s -> results s' = results s ->
  (forall u, is_uuid u -> (m (UUuid u) = None <-> m' (UUuid u) = None)) ->
  (forall u r', is_uuid u -> m' (UUuid u) = Some r' -> exists r, m (UUuid u) = Some r /\ r_msg r' = r_msg r /\ r_expires r' = r_expires r /\
     (r_received r' = r_received r \/ exists f, o = Ack f)) ->
  good (h ++ [o]) s' m'.
Proof.
  intros G So It Hn Es Ec Er M1 M2. pose proof (started_none h o So) as St.
  assert (Hs : forall v t0 ttl0 iv0, In (Send v t0 ttl0 iv0) (h ++ [o]) -> In (Send v t0 ttl0 iv0) h).
  { intros v t0 ttl0 iv0 H. apply in_send_snoc in H as [H|H]; [exact H|subst o; discriminate So]. }
  assert (Hd : forall v, In v (started h) -> deadline (h ++ [o]) v = deadline h v) by (intros; apply deadline_app; auto).
  assert (Ht : forall u, stamps s' u = stamps s u) by (intros u; unfold stamps; rewrite Es; reflexivity).
  assert (Hr : forall u, reported s' u <-> reported s u) by (intros u; unfold reported; rewrite Er; tauto).
  assert (Rd : forall u, reported s u -> is_uuid u -> True) by auto.
  split; rewrite ?Er, ?Ec, ?St.
  - exact It.
  - pose proof (g_now _ _ _ G). lia.
  - exact (g_uuid _ _ _ G).
  - exact (g_nodup _ _ _ G).
  - intros u r' U E. destruct (M2 u r' U E) as (r & E0 & B1 & B2 & _). destruct (g_open _ _ _ G u r U E0) as (A1 & A2 & A3 & A4).
    rewrite Hr, B1, B2. split; [exact A1|]. split; [exact A2|]. split; [rewrite Hd; auto|exact A4].
  - intros u Hu Nu. rewrite Hr in Nu. destruct (g_cover _ _ _ G u Hu Nu) as (r & E).
    pose proof (g_uuid _ _ _ G) as FU. rewrite Forall_forall in FU.
    destruct (m' (UUuid u)) eqn:E'; [eauto|]. apply M1 in E'; [congruence|auto].
  - exact (g_once _ _ _ G).
  - exact (g_rep _ _ _ G).
  - exact (g_cnd _ _ _ G).
  - intros c Hc. destruct (g_copy _ _ _ G c Hc) as (A1 & A2 & A3). rewrite Hr, Ht. split; [apply in_or_app; auto|]. auto.
  - intros v t0 ttl0 iv0 H N. rewrite Hr in N. eapply (g_msg _ _ _ G); eauto.
  - intros v t0 ttl0 iv0 H. rewrite Ht. eapply (g_stamp _ _ _ G); eauto.
  - intros v t0 ttl0 iv0 x H Hx. rewrite Ht in Hx. destruct (g_past _ _ _ G v t0 ttl0 iv0 x (Hs _ _ _ _ H) Hx); [auto|right; lia].
  - intros v H. rewrite Ht in H. apply (g_known _ _ _ G). exact H.
  - intros v Hv. rewrite Hd; [pose proof (g_late _ _ _ G v Hv); lia|]. apply (g_rep _ _ _ G). apply in_map_iff. exists (v, TimedOut). auto.
  - destruct (g_ack _ _ _ G) as [A1 A2]. split.
    + intros v r' V E R. destruct (M2 v r' V E) as (r & E0 & _ & _ & [B|(f & ->)]).
      * rewrite B in R. destruct (A1 v r V E0 R) as (f & Hf). exists f. apply in_or_app. auto.
      * exists f. apply in_or_app. right. left. reflexivity.
    + intros v Hv. destruct (A2 v Hv) as (f & Hf). exists f. apply in_or_app. auto.
Qed.

Lemma good_tick h s m d : good h s m -> fair (h ++ [Tick d]) -> exists s' m', step (Tick d) s = Ok s' /\ good (h ++ [Tick d]) s' m'.
Proof.
  intros G Fa. eexists _, m. split; [reflexivity|]. destruct Fa as (_ & _ & T). assert (0 <= d) by (apply T; apply in_or_app; right; left; reflexivity).
  apply (good_quiet h s m); auto; cbn [handlers now sent copies results].
  - exact (g_tree _ _ _ G).
  - lia.
  - intros u _. reflexivity.
  - intros u r _ E. exists r. auto 6.
Qed.

Lemma good_ack h s m f : good h s m -> f <> Null -> exists s' m', step (Ack f) s = Ok s' /\ good (h ++ [Ack f]) s' m'.
Proof.
  intros G Nn.
  assert (Same : good (h ++ [Ack f]) s m).
  { apply (good_quiet h s m); auto; [exact (g_tree _ _ _ G)|lia|intros u _; reflexivity|]. intros u r _ E. exists r. auto 6. }
  destruct f as [| |b]; [|congruence|].
  - exists s, m. split; [reflexivity|exact Same].
  - pose proof (mark_root m s b (g_tree _ _ _ G)) as M. destruct (els s) as [|e0 l0] eqn:El.
    + exists s, m. split; [exact M|exact Same].
    + rewrite <- El in M. destruct M as (e & h' & He & Ea & _ & It). eexists _, _. split; [exact (Ea b)|].
      destruct (els_back m s e (g_tree _ _ _ G) He) as [U Em].
      apply (good_quiet h s m); auto; [exact It|cbn; lia| |].
      * intros u _. cbv beta. destruct (ukey_eq_dec (UUuid u) (UUuid (eu e))) as [Q|Q]; [|tauto]. injection Q as ->. rewrite Em.
        split; discriminate.
      * intros u r' _ E. cbv beta in E. destruct (ukey_eq_dec (UUuid u) (UUuid (eu e))) as [Q|Q].
        -- injection Q as ->. injection E as <-. exists (snd e). cbn. eauto 8.
        -- exists r'. auto.
Qed.

Lemma nodup_app {A} (l1 l2 : list A) : NoDup l1 -> NoDup l2 -> (forall x, In x l1 -> ~ In x l2) -> NoDup (l1 ++ l2).
Proof.
  induction l1 as [|a l1 IH]; intros N1 N2 D; [exact N2|]. cbn. inversion N1; subst. constructor.
  - intros H. apply in_app_or in H as [H|H]; [contradiction|]. apply (D a); [left; reflexivity|exact H].
  - apply IH; auto. intros x Hx. apply D. right. exact Hx.
Qed.
Lemma nodup_filter_map {A B} (f : A -> B) p l : NoDup (map f l) -> NoDup (map f (filter p l)).
Proof.
  induction l as [|a l IH]; intros N; [constructor|]. cbn in *. inversion N as [|? ? N0 N1]; subst. destruct (p a); [|auto]. cbn. constructor; [|auto].
  intros H. apply N0. apply in_map_iff in H as (x & E & Hx). apply filter_In in Hx as [Hx _]. rewrite <- E. apply in_map. exact Hx.
Qed.

Notation dn s := (map (fun x => eu (fst x)) (finished s)).

Lemma finished_in s e r : In (e, r) (finished s) -> In e (els s) /\
  (r = TimedOut /\ r_expires (snd e) < now s \/ r = Answered /\ now s <= r_expires (snd e) /\ r_received (snd e) <> 0).
Proof. exact (visit_in 30 (now s) (els s) e r). Qed.
Lemma finished_nodup s : NoDup (map eu (els s)) -> NoDup (dn s).
Proof. exact (visit_nodup eu 30 (now s) (els s)). Qed.
Lemma finished_uuid m s e r : TInv m (handlers s) -> In (e, r) (finished s) -> is_uuid (eu e).
Proof. intros I H. apply finished_in in H as [H _]. exact (proj1 (els_back m s e I H)). Qed.

Lemma cleanup_spec m s : TInv m (handlers s) -> exists h', TInv (minus m (dn s)) h' /\
  cleanup s = Ok (mkSender (now s) h'
    (filter (fun c => negb (existsb (fun x => r_msg (snd (fst x)) && uuid_eqb (c_uuid c) (eu (fst x))) (finished s))) (copies s))
    (sent s) (results s ++ map (fun x => (eu (fst x), snd x)) (finished s))).
Proof.
  intros I. unfold cleanup. generalize (finished_uuid m s). generalize (finished s). intros l Hl.
  destruct (remove_all_spec l m (handlers s) I (fun e r => Hl e r I)) as (h' & E & I').
  exists h'. split; [exact I'|]. rewrite E. cbn [obind]. rewrite settle_spec. reflexivity.
Qed.

Lemma good_cleanup h s m : good h s m -> exists s' m', step AckCheck s = Ok s' /\ good (h ++ [AckCheck]) s' m'.
Proof.
  intros G. set (o := AckCheck). pose proof (g_tree _ _ _ G) as I. destruct (cleanup_spec m s I) as (h' & It & Es). cbn [step o].
  eexists _, _. split; [exact Es|]. set (s' := mkSender _ _ _ _ _). clear Es.
  pose proof (started_none h o eq_refl) as St.
  assert (Hs : forall v t0 ttl0 iv0, In (Send v t0 ttl0 iv0) (h ++ [o]) -> In (Send v t0 ttl0 iv0) h).
  { intros v t0 ttl0 iv0 H. apply in_send_snoc in H as [H|H]; [exact H|discriminate H]. }
  assert (Hd : forall v, In v (started h) -> deadline (h ++ [o]) v = deadline h v) by (intros; apply deadline_app; auto).
  assert (Hr : forall u, reported s' u <-> reported s u \/ In u (dn s)).
  { intros u. unfold reported, s'. cbn [results]. rewrite map_app, map_map, in_app_iff. cbn [fst]. reflexivity. }
  assert (Hdn : forall u, In u (dn s) -> exists r, is_uuid u /\ m (UUuid u) = Some r).
  { intros u H. apply in_map_iff in H as ([e r] & <- & H). apply finished_in in H as [H _]. exists (snd e). apply (els_back m s e I H). }
  assert (Hm : forall u r, is_uuid u -> minus m (dn s) (UUuid u) = Some r <-> m (UUuid u) = Some r /\ ~ In u (dn s)).
  { intros u r U. unfold minus. destruct (in_dec (list_eq_dec Z.eq_dec) u (dn s)) as [J|J]; split; intros H; try discriminate; try tauto. }
  assert (Hmsg : forall e r, In (e, r) (finished s) -> (r_msg (snd e) = true <-> In (eu e) (map c_uuid (copies s)))).
  { intros e r H. apply finished_in in H as [H _]. destruct (els_back m s e I H) as [U E]. apply (g_open _ _ _ G (eu e) (snd e) U E). }
  assert (Hc : forall c, In c (copies s') <-> In c (copies s) /\ ~ In (c_uuid c) (dn s)).
  { intros c. unfold s'. cbn [copies]. rewrite filter_In, Bool.negb_true_iff. split; intros [H1 H2]; (split; [exact H1|]).
    - intros H. apply in_map_iff in H as ([e r] & E & H). apply Bool.not_true_iff_false in H2. apply H2. apply existsb_exists.
      exists (e, r). split; [exact H|]. cbn [fst] in E |- *. rewrite (proj2 (Hmsg e r H)), <- E by (rewrite E; apply in_map; exact H1).
      cbn [andb]. apply uuid_eqb_spec. reflexivity.
    - apply Bool.not_true_iff_false. intros H. apply H2. apply existsb_exists in H as ([e r] & H & E). cbn [fst] in E.
      apply andb_prop in E as [_ E]. apply uuid_eqb_spec in E. rewrite E. apply in_map_iff. exists (e, r). auto. }
  assert (Hcu : forall u, In u (map c_uuid (copies s')) <-> In u (map c_uuid (copies s)) /\ ~ In u (dn s)).
  { intros u. split.
    - intros H. apply in_map_iff in H as (c & <- & H). apply Hc in H as [H1 H2]. split; [apply in_map; exact H1|exact H2].
    - intros [H H2]. apply in_map_iff in H as (c & <- & H1). apply in_map. apply Hc. auto. }
  split; rewrite ?St; try fold s'.
  - exact It.
  - exact (g_now _ _ _ G).
  - exact (g_uuid _ _ _ G).
  - exact (g_nodup _ _ _ G).
  - intros u r U E. apply Hm in E as [E N]; [|exact U]. destruct (g_open _ _ _ G u r U E) as (A1 & A2 & A3 & A4).
    rewrite Hr, Hcu. split; [exact A1|]. split; [tauto|]. split; [rewrite Hd; auto|]. tauto.
  - intros u Hu Nu. rewrite Hr in Nu. destruct (g_cover _ _ _ G u Hu) as (r & E); [tauto|]. exists r. apply Hm; [|tauto].
    pose proof (g_uuid _ _ _ G) as FU. rewrite Forall_forall in FU. auto.
  - unfold s'. cbn [results]. rewrite map_app, map_map. cbn [fst]. apply nodup_app; [exact (g_once _ _ _ G)| |].
    + apply finished_nodup. exact (els_nodup m _ I).
    + intros u Hu H. destruct (Hdn u H) as (r & U & E). apply (g_open _ _ _ G u r U E). exact Hu.
  - intros u Hu. unfold s' in Hu. apply Hr in Hu as [Hu|Hu]; [exact (g_rep _ _ _ G u Hu)|]. destruct (Hdn u Hu) as (r & U & E).
    apply (g_open _ _ _ G u r U E).
  - apply nodup_filter_map. exact (g_cnd _ _ _ G).
  - intros c H. apply Hc in H as [H N]. destruct (g_copy _ _ _ G c H) as (A1 & A2 & A3). rewrite Hr. split; [apply in_or_app; auto|].
    split; [tauto|]. exact A3.
  - intros v t0 ttl0 iv0 H N. rewrite Hr in N. apply Hcu. split; [eapply (g_msg _ _ _ G); eauto|tauto].
  - intros v t0 ttl0 iv0 H. exact (g_stamp _ _ _ G _ _ _ _ (Hs _ _ _ _ H)).
  - intros v t0 ttl0 iv0 x H Hx. exact (g_past _ _ _ G _ _ _ _ _ (Hs _ _ _ _ H) Hx).
  - intros v H. exact (g_known _ _ _ G v H).
  - intros v Hv. unfold s' in Hv. cbn [results] in Hv. apply in_app_or in Hv as [Hv|Hv].
    + rewrite Hd; [exact (g_late _ _ _ G v Hv)|]. apply (g_rep _ _ _ G). apply in_map_iff. exists (v, TimedOut). auto.
    + apply in_map_iff in Hv as ([e r] & E & Hv). cbn [fst snd] in E. injection E as <- ->.
      apply finished_in in Hv as [Hv [[_ L]|[L _]]]; [|discriminate L]. destruct (els_back m s e I Hv) as [U Em].
      destruct (g_open _ _ _ G _ _ U Em) as (A1 & _ & A3 & _). rewrite Hd by exact A1. cbn [now s']. lia.
  - destruct (g_ack _ _ _ G) as [A1 A2]. split.
    + intros v r V E R. apply Hm in E as [E _]; [|exact V]. destruct (A1 v r V E R) as (f & Hf). exists f. apply in_or_app. auto.
    + intros v Hv. unfold s' in Hv. cbn [results] in Hv. apply in_app_or in Hv as [Hv|Hv].
      * destruct (A2 v Hv) as (f & Hf). exists f. apply in_or_app. auto.
      * apply in_map_iff in Hv as ([e r] & E & Hv). cbn [fst snd] in E. injection E as <- ->.
        apply finished_in in Hv as [Hv [[L _]|(_ & _ & L)]]; [discriminate L|]. destruct (els_back m s e I Hv) as [U Em].
        destruct (A1 _ _ U Em L) as (f & Hf). exists f. apply in_or_app. auto.
Qed.

(** The check of the channels *)
Definition dues (s : sender) : list (uuid * Z) := map (fun c => (c_uuid c, c_at c)) (filter (due (now s)) (copies s)).

Lemma redeliver_spec h s m : good h s m ->
  redeliver_messages s = Ok (mkSender (now s) (handlers s) (map (fun c => if due (now s) c then later c else c) (copies s))
    (sent s ++ dues s) (results s)).
Proof.
  intros G. unfold redeliver_messages. rewrite (resend_spec _ m).
  - reflexivity.
  - exact (g_tree _ _ _ G).
  - intros c Hc. apply filter_In in Hc as [Hc _]. destruct (g_copy _ _ _ G c Hc) as (A1 & A2 & A3).
    pose proof (send_started _ _ _ _ _ A1) as Hst. pose proof (g_uuid _ _ _ G) as FU. rewrite Forall_forall in FU.
    split; [auto|]. split; [apply (g_cover _ _ _ G); auto|]. cbn [copies]. rewrite map_map. apply in_map_iff. exists c.
    split; [|exact Hc]. destruct (due (now s) c); reflexivity.
Qed.

Lemma pick_dues : forall l t c, NoDup (map c_uuid l) -> In c l ->
  pick (c_uuid c) (map (fun c => (c_uuid c, c_at c)) (filter (due t) l)) = if due t c then [c_at c] else [].
Proof.
  assert (N0 : forall l t u, ~ In u (map c_uuid l) -> pick u (map (fun c => (c_uuid c, c_at c)) (filter (due t) l)) = []).
  { induction l as [|a l IH]; intros t u H; [reflexivity|]. cbn [filter]. cbn in H.
    destruct (due t a); [|apply IH; tauto]. cbn [map]. unfold pick. cbn [filter fst].
    destruct (list_eq_dec Z.eq_dec (c_uuid a) u) as [E|_]; [tauto|]. apply IH. tauto. }
  induction l as [|a l IH]; intros t c N H; [destruct H|]. cbn [map] in N. inversion N as [|? ? N1 N2]; subst. destruct H as [->|H].
  - cbn [filter]. destruct (due t c) eqn:E.
    + cbn [map]. unfold pick. cbn [filter fst]. destruct (list_eq_dec Z.eq_dec (c_uuid c) (c_uuid c)) as [_|Q]; [|congruence].
      cbn [map snd]. fold (pick (c_uuid c) (map (fun c => (c_uuid c, c_at c)) (filter (due t) l))). rewrite N0 by exact N1. reflexivity.
    + apply N0. exact N1.
  - cbn [filter]. destruct (due t a); [|auto]. cbn [map]. unfold pick. cbn [filter fst].
    destruct (list_eq_dec Z.eq_dec (c_uuid a) (c_uuid c)) as [E|_]; [|apply IH; auto].
    exfalso. apply N1. rewrite E. apply in_map. exact H.
Qed.

Lemma pick_none u l : ~ In u (map fst l) -> pick u l = [].
Proof.
  induction l as [|a l IH]; intros H; [reflexivity|]. unfold pick. cbn [filter]. cbn in H.
  destruct (list_eq_dec Z.eq_dec (fst a) u) as [E|_]; [tauto|]. apply IH. tauto.
Qed.

Lemma good_channel h s m : good h s m -> exists s' m', step ChannelCheck s = Ok s' /\ good (h ++ [ChannelCheck]) s' m'.
Proof.
  intros G. set (o := ChannelCheck). cbn [step o]. exists (mkSender (now s) (handlers s) (map (fun c => if due (now s) c then later c else c) (copies s))
    (sent s ++ dues s) (results s)), m. split; [exact (redeliver_spec h s m G)|]. set (s' := mkSender _ _ _ _ _).
  pose proof (started_none h o eq_refl) as St.
  assert (Hs : forall v t0 ttl0 iv0, In (Send v t0 ttl0 iv0) (h ++ [o]) -> In (Send v t0 ttl0 iv0) h).
  { intros v t0 ttl0 iv0 H. apply in_send_snoc in H as [H|H]; [exact H|discriminate H]. }
  assert (Hd : forall v, In v (started h) -> deadline (h ++ [o]) v = deadline h v) by (intros; apply deadline_app; auto).
  assert (Hu : map c_uuid (copies s') = map c_uuid (copies s)).
  { unfold s'. cbn [copies]. rewrite map_map. apply map_ext. intros c. destruct (due (now s) c); reflexivity. }
  assert (Ht : forall u, stamps s' u = stamps s u ++ pick u (dues s)) by (intros u; apply stamps_more; reflexivity).
  assert (Hc : forall c, In c (copies s) -> stamps s' (c_uuid c) = stamps s (c_uuid c) ++ if due (now s) c then [c_at c] else []).
  { intros c H. rewrite Ht. f_equal. apply pick_dues; [exact (g_cnd _ _ _ G)|exact H]. }
  assert (Hn : forall u, ~ In u (map c_uuid (copies s)) -> stamps s' u = stamps s u).
  { intros u H. rewrite Ht, pick_none; [apply app_nil_r|]. intros C. apply H. unfold dues in C. rewrite map_map in C. cbn [fst] in C.
    apply in_map_iff in C as (c & <- & C). apply filter_In in C as [C _]. apply in_map. exact C. }
  split; rewrite ?St; try fold s'; rewrite ?Hu.
  - exact (g_tree _ _ _ G).
  - exact (g_now _ _ _ G).
  - exact (g_uuid _ _ _ G).
  - exact (g_nodup _ _ _ G).
  - intros u r U E. destruct (g_open _ _ _ G u r U E) as (A1 & A2 & A3 & A4). split; [exact A1|]. split; [exact A2|].
    split; [rewrite Hd; auto|]. exact A4.
  - intros u A1 A2. exact (g_cover _ _ _ G u A1 A2).
  - exact (g_once _ _ _ G).
  - exact (g_rep _ _ _ G).
  - exact (g_cnd _ _ _ G).
  - intros c' H. unfold s' in H. cbn [copies] in H. apply in_map_iff in H as (c & <- & H).
    destruct (g_copy _ _ _ G c H) as (A1 & A2 & A3). destruct (due (now s) c) eqn:Du.
    + cbn [later c_uuid c_sendat c_ttl c_iv c_at]. split; [apply in_or_app; auto|]. split; [exact A2|].
      rewrite (Hc c H), Du, app_length, A3. cbn [length]. lia.
    + split; [apply in_or_app; auto|]. split; [exact A2|]. rewrite (Hc c H), Du, app_nil_r. exact A3.
  - intros v t0 ttl0 iv0 H N. exact (g_msg _ _ _ G _ _ _ _ (Hs _ _ _ _ H) N).
  - intros v t0 ttl0 iv0 H. apply Hs in H. destruct (g_stamp _ _ _ G _ _ _ _ H) as (k & Ek).
    destruct (in_dec (list_eq_dec Z.eq_dec) v (map c_uuid (copies s))) as [J|J]; [|rewrite Hn by exact J; eauto].
    apply in_map_iff in J as (c & <- & J). rewrite (Hc c J). destruct (due (now s) c); [|rewrite app_nil_r; eauto].
    exists (S k). rewrite progression_S, Ek. f_equal. f_equal. destruct (g_copy _ _ _ G c J) as (A1 & _ & A3).
    destruct (send_inj h (c_uuid c) _ _ _ _ _ _ (g_nodup _ _ _ G) A1 H) as (Q1 & _ & Q2). rewrite A3, Ek, Q1, Q2.
    unfold progression. rewrite map_length, seq_length. reflexivity.
  - intros v t0 ttl0 iv0 x H Hx. apply Hs in H. cbn [now s'].
    destruct (in_dec (list_eq_dec Z.eq_dec) v (map c_uuid (copies s))) as [J|J];
      [|rewrite Hn in Hx by exact J; exact (g_past _ _ _ G _ _ _ _ _ H Hx)].
    apply in_map_iff in J as (c & <- & J). rewrite (Hc c J) in Hx. apply in_app_or in Hx as [Hx|Hx]; [exact (g_past _ _ _ G _ _ _ _ _ H Hx)|].
    destruct (due (now s) c) eqn:Du; [|destruct Hx]. destruct Hx as [<-|[]]. right. apply Z.ltb_lt in Du. exact Du.
  - intros v H. destruct (in_dec (list_eq_dec Z.eq_dec) v (map c_uuid (copies s))) as [J|J].
    + apply in_map_iff in J as (c & <- & J). eapply copy_started; eauto.
    + rewrite Hn in H by exact J. exact (g_known _ _ _ G v H).
  - intros v Hv. rewrite Hd; [exact (g_late _ _ _ G v Hv)|]. apply (g_rep _ _ _ G). apply in_map_iff. exists (v, TimedOut). auto.
  - destruct (g_ack _ _ _ G) as [A1 A2]. split.
    + intros v r V E R. destruct (A1 v r V E R) as (f & Hf). exists f. apply in_or_app. auto.
    + intros v Hv. destruct (A2 v Hv) as (f & Hf). exists f. apply in_or_app. auto.
Qed.

Lemma good_step h s m o : good h s m -> fair (h ++ [o]) -> o <> Ack Null -> exists s' m', step o s = Ok s' /\ good (h ++ [o]) s' m'.
Proof.
  intros G F N. destruct o as [u t ttl iv|u t ttl|f| | |d].
  - eapply good_send; eauto.
  - eapply good_ping; eauto.
  - eapply good_ack; eauto. congruence.
  - eapply good_cleanup; eauto.
  - eapply good_channel; eauto.
  - eapply good_tick; eauto.
Qed.

Lemma run_app h1 h2 s : run (h1 ++ h2) s = obind (run h1 s) (run h2).
Proof.
  revert s. induction h1 as [|o h1 IH]; intros s; [reflexivity|]. cbn [app run]. destruct (step o s); cbn [obind]; auto.
Qed.

Lemma good_run h t s : 0 < t -> fair h -> run h (init t) = Ok s -> exists m, good h s m.
Proof.
  intros Ht. revert s. induction h as [|o h IH] using rev_ind; intros s F E.
  - cbn in E. injection E as <-. exists no_bindings. apply good_init. exact Ht.
  - rewrite run_app in E. destruct (run h (init t)) as [s0| |] eqn:E0; try discriminate. cbn [obind] in E.
    destruct (IH s0 (fair_app _ _ F) eq_refl) as (m & G). cbn [run] in E.
    destruct (step o s0) as [s1| |] eqn:E1; try discriminate. cbn [obind] in E. injection E as <-.
    destruct (good_step h s0 m o G F) as (s' & m' & E2 & G'); [|exists m'; congruence].
    intros ->. discriminate E1.
Qed.

Lemma run_ok h h2 s m : good h s m -> fair (h ++ h2) -> ~ In (Ack Null) h2 -> exists s' m', run h2 s = Ok s' /\ good (h ++ h2) s' m'.
Proof.
  revert h s m. induction h2 as [|o h2 IH]; intros h s m G F N.
  - exists s, m. rewrite app_nil_r. auto.
  - replace (h ++ o :: h2) with ((h ++ [o]) ++ h2) in * by (rewrite <- app_assoc; reflexivity).
    destruct (good_step h s m o G (fair_app _ _ F)) as (s1 & m1 & E1 & G1); [intros ->; apply N; left; reflexivity|].
    destruct (IH _ s1 m1 G1 F) as (s' & m' & E' & G'); [intros H; apply N; right; exact H|].
    exists s', m'. split; [|exact G']. cbn [run]. rewrite E1. exact E'.
Qed.

Lemma ok_inj {A} (x y : A) (c : outcome A) : c = Ok x -> c = Ok y -> x = y.
Proof. congruence. Qed.
Lemma ack_check m s s' : TInv m (handlers s) -> step AckCheck s = Ok s' -> now s' = now s /\ sent s' = sent s /\
  results s' = results s ++ map (fun x => (eu (fst x), snd x)) (finished s).
Proof.
  intros I E. destruct (cleanup_spec m s I) as (h' & _ & Ec).
  rewrite (ok_inj _ _ _ E Ec). split; [reflexivity|]. split; reflexivity.
Qed.

(** ** The messages without a report are the handlers *)
Lemma open_in h s u : In u (open h s) <-> In u (started h) /\ ~ reported s u.
Proof. unfold open, reported. rewrite filter_In. destruct (in_dec (list_eq_dec Z.eq_dec) u (map fst (results s))); intuition congruence. Qed.

Lemma open_els h s m u : good h s m -> In u (open h s) <-> In u (map eu (els s)).
Proof.
  intros G. pose proof (g_tree _ _ _ G) as I. rewrite open_in. split.
  - intros [H1 H2]. destruct (g_cover _ _ _ G u H1 H2) as (r & E). pose proof (g_uuid _ _ _ G) as FU. rewrite Forall_forall in FU.
    apply (els_in m s u r I (FU u H1)) in E. apply in_map_iff. exists (KOther (UUuid u), r). auto.
  - intros H. apply in_map_iff in H as (e & <- & He). destruct (els_back m s e I He) as [U E]. destruct (g_open _ _ _ G _ _ U E) as (A1 & A2 & _). auto.
Qed.

Lemma open_nodup h s m : good h s m -> NoDup (open h s).
Proof. intros G. apply NoDup_filter. exact (g_nodup _ _ _ G). Qed.

Lemma open_length h s m : good h s m -> length (open h s) = length (els s).
Proof.
  intros G. rewrite <- (map_length eu (els s)). apply Nat.le_antisymm; apply NoDup_incl_length.
  - eapply open_nodup; eauto.
  - intros u H. eapply open_els; eauto.
  - exact (els_nodup m _ (g_tree _ _ _ G)).
  - intros u H. eapply open_els; eauto.
Qed.

Lemma els_deadline h s m e : good h s m -> In e (els s) -> r_expires (snd e) = deadline h (eu e).
Proof. intros G H. destruct (els_back m s e (g_tree _ _ _ G) H) as [U E]. apply (g_open _ _ _ G _ _ U E). Qed.

Lemma cleanup_one m s e : TInv m (handlers s) -> finished s = [(e, Answered)] -> exists s', cleanup s = Ok s' /\ results s' = results s ++ [(eu e, Answered)].
Proof. intros I E. destruct (cleanup_spec m s I) as (h' & _ & Ec). rewrite Ec. eexists. split; [reflexivity|]. cbn [results]. rewrite E. reflexivity. Qed.

Lemma le31 a b : (a + S b <= 31 -> a <= 30)%nat.
Proof. lia. Qed.

Lemma any_ack h s m : good h s m -> no_ack h -> open h s <> [] -> (length (open h s) <= 31)%nat ->
  (forall u, In u (open h s) -> now s <= deadline h u) ->
  exists v, In v (open h s) /\ forall b, exists s', run [Ack (Bin b); AckCheck] s = Ok s' /\ results s' = results s ++ [(v, Answered)].
Proof.
  intros G Na Ne L D. pose proof (g_tree _ _ _ G) as I. rewrite (open_length h s m G) in L.
  pose proof (mark_root m s [] I) as M. destruct (els s) as [|e0 l0] eqn:El.
  { exfalso. apply Ne. assert (Q : length (open h s) = 0%nat) by (rewrite (open_length h s m G), El; reflexivity).
    destruct (open h s); [reflexivity|discriminate]. }
  rewrite <- El in *. destruct M as (e & h' & He & Ea & (A & B & E1 & E2) & It). exists (eu e). split.
  - apply (open_els h s m _ G). apply in_map. exact He.
  - intros b. cbn [run step]. rewrite Ea. cbn [obind].
    destruct (cleanup_one _ (set_handlers h' s) (fst e, mkRc (r_msg (snd e)) (r_expires (snd e)) (now s)) It) as (s' & Ec & Er).
    + unfold finished. cbn [handlers set_handlers now]. rewrite E2. apply visit_one; cbn [snd r_expires r_received].
      * intros x Hx. assert (Hx' : In x (els s)) by (rewrite E1; apply in_or_app; cbn; tauto).
        destruct (els_back m s x I Hx') as [U E]. rewrite (els_deadline h s m x G Hx'). split.
        -- apply D. apply (open_els h s m _ G). apply in_map. exact Hx'.
        -- destruct (Z.eq_dec (r_received (snd x)) 0) as [Q|Q]; [exact Q|]. exfalso.
           destruct (proj1 (g_ack _ _ _ G) _ _ U E Q) as (f & Hf). exact (Na f Hf).
      * rewrite E1, app_length in L. cbn [length] in L. exact (le31 _ _ L).
      * rewrite (els_deadline h s m e G He). apply D. apply (open_els h s m _ G). apply in_map. exact He.
      * pose proof (g_now _ _ _ G). lia.
    + exists s'. split; [rewrite Ec; reflexivity|exact Er].
Qed.

Lemma single_ack h s m u : good h s m -> open h s = [u] -> now s <= deadline h u ->
  exists s', run [Ack (Bin u); AckCheck] s = Ok s' /\ results s' = results s ++ [(u, Answered)].
Proof.
  intros G Eo D. pose proof (g_tree _ _ _ G) as I. pose proof (open_length h s m G) as L. rewrite Eo in L. cbn [length] in L.
  pose proof (mark_root m s [] I) as M. destruct (els s) as [|e0 [|e1 l0]] eqn:El; try discriminate L.
  rewrite <- El in *. destruct M as (e & h' & He & Ea & (A & B & E1 & E2) & It).
  assert (Eu : eu e = u).
  { assert (Q : In (eu e) (open h s)) by (apply (open_els h s m _ G); apply in_map; exact He). rewrite Eo in Q. destruct Q as [Q|[]]. auto. }
  rewrite E1, app_length in L. cbn [length] in L. assert (A = []) by (destruct A; [reflexivity|cbn in L; lia]).
  assert (B = []) by (destruct B; [reflexivity|subst A; cbn in L; lia]). subst A B.
  cbn [run step]. rewrite Ea. cbn [obind].
  destruct (cleanup_one _ (set_handlers h' s) (fst e, mkRc (r_msg (snd e)) (r_expires (snd e)) (now s)) It) as (s' & Ec & Er).
  - unfold finished. cbn [handlers set_handlers now]. rewrite E2. apply visit_one; cbn [snd r_expires r_received].
    + intros x [[]|[]].
    + cbn. lia.
    + rewrite (els_deadline h s m e G He), Eu. exact D.
    + pose proof (g_now _ _ _ G). lia.
  - exists s'. split; [rewrite Ec; reflexivity|]. rewrite Er. unfold eu in Eu |- *. cbn [fst]. rewrite Eu. reflexivity.
Qed.

(** ** Once reported, never sent again *)
Lemma step_results h s m o s' : good h s m -> step o s = Ok s' -> exists l, results s' = results s ++ l.
Proof.
  intros G E. destruct o as [u t ttl iv|u t ttl|f| | |d].
  4:{ exists (map (fun x => (eu (fst x), snd x)) (finished s)). apply (ack_check m s s' (g_tree _ _ _ G) E). }
  all: exists []; rewrite app_nil_r; cbn [step] in E.
  - unfold out_message, add_response_handler in E. destruct (np_tree_insert _ _ _ _ _ _); try discriminate. cbn [obind] in E.
    unfold redelivery_set in E. destruct (existsb _ _) in E; injection E as <-; reflexivity.
  - unfold add_response_handler in E. destruct (np_tree_insert _ _ _ _ _ _); try discriminate. injection E as <-. reflexivity.
  - unfold in_ack in E. destruct f; try discriminate; injection E as <-; reflexivity.
  - rewrite (redeliver_spec h s m G) in E. injection E as <-. reflexivity.
  - injection E as <-. reflexivity.
Qed.

Lemma channel_stamps h s m s' c : good h s m -> step ChannelCheck s = Ok s' -> In c (copies s) ->
  stamps s' (c_uuid c) = stamps s (c_uuid c) ++ if c_at c <? now s then [c_at c] else [].
Proof.
  intros G E H. cbn [step] in E. rewrite (redeliver_spec h s m G) in E. injection E as <-. rewrite (stamps_more s _ (dues s)) by reflexivity.
  f_equal. apply pick_dues; [exact (g_cnd _ _ _ G)|exact H].
Qed.
Lemma channel_others h s m s' u : good h s m -> step ChannelCheck s = Ok s' -> ~ In u (map c_uuid (copies s)) -> stamps s' u = stamps s u.
Proof.
  intros G E H. cbn [step] in E. rewrite (redeliver_spec h s m G) in E. injection E as <-. rewrite (stamps_more s _ (dues s)) by reflexivity.
  rewrite pick_none; [apply app_nil_r|]. intros C. apply H. unfold dues in C. rewrite map_map in C. cbn [fst] in C.
  apply in_map_iff in C as (c & <- & C). apply filter_In in C as [C _]. apply in_map. exact C.
Qed.

(** Only a send or the check of the channels sends *)
Lemma step_sent h s m o s' : good h s m -> step o s = Ok s' -> o <> ChannelCheck -> (forall u t ttl iv, o <> Send u t ttl iv) -> sent s' = sent s.
Proof.
  intros G E N1 N2. destruct o as [u t ttl iv|u t ttl|f| | |d].
  4:{ apply (ack_check m s s' (g_tree _ _ _ G) E). }
  all: cbn [step] in E.
  - destruct (N2 u t ttl iv eq_refl).
  - unfold add_response_handler in E. destruct (np_tree_insert _ _ _ _ _ _); try discriminate. injection E as <-. reflexivity.
  - unfold in_ack in E. destruct f; try discriminate; injection E as <-; reflexivity.
  - congruence.
  - injection E as <-. reflexivity.
Qed.
Lemma send_stamps s u t ttl iv s' v : step (Send u t ttl iv) s = Ok s' -> v <> u -> stamps s' v = stamps s v.
Proof.
  intros E N. cbn [step] in E. unfold out_message, add_response_handler in E. destruct (np_tree_insert _ _ _ _ _ _); try discriminate. cbn [obind] in E.
  assert (Es : sent s' = sent s ++ [(u, t)]).
  { unfold redelivery_set in E. destruct (existsb _ _) in E; injection E as <-; reflexivity. }
  rewrite (stamps_more s s' _ v Es), (pick_ne u v t N). apply app_nil_r.
Qed.

Lemma silent_step h s m o s' m' u : good h s m -> fair (h ++ [o]) -> step o s = Ok s' -> good (h ++ [o]) s' m' -> reported s u ->
  reported s' u /\ stamps s' u = stamps s u.
Proof.
  intros G F E G' R. split.
  - destruct (step_results h s m o s' G E) as (l & El). unfold reported in *. rewrite El, map_app. apply in_or_app. auto.
  - destruct o as [v t ttl iv|v t ttl|f| | |d];
      try (unfold stamps; rewrite (step_sent h s m _ s' G E) by (congruence || intros; discriminate); reflexivity).
    + eapply send_stamps; [exact E|]. intros ->. apply (proj1 (fair_snoc h _ _ F eq_refl)). exact (g_rep _ _ _ G _ R).
    + eapply channel_others; eauto. intros H. apply in_map_iff in H as (c & <- & H). destruct (g_copy _ _ _ G c H) as (_ & A2 & _). contradiction.
Qed.

Lemma no_null_run h s s' : run h s = Ok s' -> ~ In (Ack Null) h.
Proof.
  revert s. induction h as [|o h IH]; intros s E H; [destruct H|]. cbn [run] in E. destruct (step o s) as [s1| |] eqn:E1; try discriminate.
  destruct H as [->|H]; [discriminate E1|]. exact (IH s1 E H).
Qed.

Lemma silent h2 : forall h s m s' u, good h s m -> fair (h ++ h2) -> run h2 s = Ok s' -> reported s u -> reported s' u /\ stamps s' u = stamps s u.
Proof.
  induction h2 as [|o h2 IH]; intros h s m s' u G F E R.
  - cbn in E. injection E as <-. auto.
  - pose proof (no_null_run _ _ _ E) as Nn. replace (h ++ o :: h2) with ((h ++ [o]) ++ h2) in * by (rewrite <- app_assoc; reflexivity).
    destruct (good_step h s m o G (fair_app _ _ F)) as (s1 & m1 & E1 & G1); [intros ->; apply Nn; left; reflexivity|].
    cbn [run] in E. rewrite E1 in E. cbn [obind] in E.
    destruct (silent_step h s m o s1 m1 u G (fair_app _ _ F) E1 G1 R) as [R1 S1].
    destruct (IH _ s1 m1 s' u G1 F E R1) as [R2 S2]. split; [exact R2|]. congruence.
Qed.

(** ** Every wait ends *)
Lemma finished_all s : (forall e, In e (els s) -> r_expires (snd e) < now s) -> finished s = map (fun e => (e, TimedOut)) (firstn 31 (els s)).
Proof.
  unfold finished. change 31%nat with (S 30). generalize 30%nat as n. generalize (els s) as l. intros l n. revert l.
  induction n as [|n IH]; intros l H; destruct l as [|e l]; try reflexivity; cbn [visit];
  pose proof (H e (or_introl eq_refl)) as L; apply Z.ltb_lt in L; rewrite L.
  - reflexivity.
  - change (firstn (S (S n)) (e :: l)) with (e :: firstn (S n) l). cbn [map]. f_equal. apply IH. intros x Hx. apply H. right. exact Hx.
Qed.

Lemma cleanup_less h s m s' m' : good h s m -> (forall u, In u (open h s) -> deadline h u < now s) -> step AckCheck s = Ok s' ->
  good (h ++ [AckCheck]) s' m' -> (length (open (h ++ [AckCheck]) s') <= length (open h s) - 31)%nat.
Proof.
  intros G D E G'. pose proof (g_tree _ _ _ G) as I. destruct (ack_check m s s' I E) as (_ & _ & Er). rewrite (open_length h s m G).
  assert (Hf : finished s = map (fun e => (e, TimedOut)) (firstn 31 (els s))).
  { apply finished_all. intros e He. rewrite (els_deadline h s m e G He). apply D. apply (open_els h s m _ G). apply in_map. exact He. }
  replace (length (els s) - 31)%nat with (length (map eu (skipn 31 (els s)))) by (rewrite map_length, skipn_length; reflexivity).
  apply NoDup_incl_length; [eapply open_nodup; eauto|]. intros u Hu. apply open_in in Hu as [H1 H2].
  rewrite (started_none h AckCheck eq_refl) in H1. unfold reported in H2. rewrite Er, map_app, map_map in H2. cbn [fst] in H2.
  assert (Ho : In u (map eu (els s))).
  { apply (open_els h s m _ G). apply open_in. split; [exact H1|]. intros R. apply H2. apply in_or_app. left. exact R. }
  rewrite <- (firstn_skipn 31 (els s)), map_app in Ho. apply in_app_or in Ho as [Ho|Ho]; [|exact Ho].
  exfalso. apply H2. apply in_or_app. right. rewrite Hf, map_map. cbn [fst]. exact Ho.
Qed.

Lemma open_less h s m o s' : good h s m -> start o = None -> step o s = Ok s' -> incl (open (h ++ [o]) s') (open h s).
Proof.
  intros G So E u H. apply open_in in H as [H1 H2]. rewrite (started_none h o So) in H1. apply open_in. split; [exact H1|].
  intros R. apply H2. destruct (step_results h s m o s' G E) as (l & El). unfold reported in *. rewrite El, map_app. apply in_or_app. auto.
Qed.

Lemma step_now o s s' : (forall d, o = Tick d -> 0 <= d) -> step o s = Ok s' -> (forall h m, good h s m -> now s <= now s').
Proof.
  intros T E h m G. destruct o as [u t ttl iv|u t ttl|f| | |d].
  4:{ destruct (ack_check m s s' (g_tree _ _ _ G) E) as (Q & _). lia. }
  all: cbn [step] in E.
  - unfold out_message, add_response_handler in E. destruct (np_tree_insert _ _ _ _ _ _); try discriminate. cbn [obind] in E.
    unfold redelivery_set in E. destruct (existsb _ _) in E; injection E as <-; cbn; lia.
  - unfold add_response_handler in E. destruct (np_tree_insert _ _ _ _ _ _); try discriminate. injection E as <-. cbn; lia.
  - unfold in_ack in E. destruct f; try discriminate; injection E as <-; cbn; lia.
  - rewrite (redeliver_spec h s m G) in E. injection E as <-. cbn; lia.
  - injection E as <-. cbn. specialize (T d eq_refl). lia.
Qed.

Lemma ends h2 : forall h s m, good h s m -> fair (h ++ h2) -> no_start h2 -> ~ In (Ack Null) h2 ->
  (forall u, In u (open h s) -> deadline h u < now s) -> (length (open h s) <= 31 * rounds h2)%nat ->
  exists s', run h2 s = Ok s' /\ open (h ++ h2) s' = [].
Proof.
  induction h2 as [|o h2 IH]; intros h s m G F Ns Nn D L.
  - exists s. split; [reflexivity|]. rewrite app_nil_r. destruct (open h s); [reflexivity|cbn in L; lia].
  - assert (So : start o = None /\ no_start h2).
    { unfold no_start in *. cbn [started] in Ns. destruct (start o); [discriminate|auto]. }
    destruct So as [So Ns'].
    replace (h ++ o :: h2) with ((h ++ [o]) ++ h2) in * by (rewrite <- app_assoc; reflexivity).
    destruct (good_step h s m o G (fair_app _ _ F)) as (s1 & m1 & E1 & G1); [intros ->; apply Nn; left; reflexivity|].
    pose proof (open_less h s m o s1 G So E1) as Inc.
    destruct (IH (h ++ [o]) s1 m1 G1 F Ns') as (s' & E' & O').
    + intros H. apply Nn. right. exact H.
    + intros u Hu. apply Inc in Hu. specialize (D u Hu). rewrite deadline_app by (apply open_in in Hu; tauto).
      assert (now s <= now s1); [|lia]. apply (step_now o s s1) with (h := h) (m := m); auto.
      intros d ->. apply (proj2 (proj2 F)). apply in_or_app. left. apply in_or_app. right. left. reflexivity.
    + assert (Lo : (length (open (h ++ [o]) s1) <= length (open h s))%nat).
      { apply NoDup_incl_length; [eapply open_nodup; eauto|exact Inc]. }
      destruct o; cbn [rounds filter length] in L; try (unfold rounds in *; lia).
      pose proof (cleanup_less h s m s1 m1 G D E1 G1). unfold rounds in *. cbn [filter length] in L. lia.
    + exists s'. split; [cbn [run]; rewrite E1; exact E'|exact O'].
Qed.

(** A check that finds nothing *)
Lemma visit_quiet_first n t l : Forall (fun e => t <= r_expires (snd e) /\ r_received (snd e) = 0) (firstn (S n) l) -> visit n t l = [].
Proof. intros F. rewrite visit_firstn. apply visit_quiet. apply Forall_forall. exact F. Qed.
Lemma finished_quiet s : Forall (fun e => now s <= r_expires (snd e) /\ r_received (snd e) = 0) (firstn 31 (els s)) -> finished s = [].
Proof. exact (visit_quiet_first 30 (now s) (els s)). Qed.
Lemma cleanup_quiet s : finished s = [] -> step AckCheck s = Ok s.
Proof.
  intros C. assert (Q : cleanup s = Ok s); [|exact Q]. unfold cleanup. revert C. generalize (finished s). intros l ->.
  cbn [remove_all obind settle]. destruct s; reflexivity.
Qed.
