(** Proofs about the cache of incomplete messages. *)
From Verif Require Import Base Dhkey_Model Bloom_Model Bloom_Spec Bloom_Std Bloom_Decay Message_Model Message_Spec Message_Proofs Parts_Model Parts_Spec.
Local Notation W16 := (or_intror eq_refl : width_ok 16).

Lemma same_key_eq a b : same_key a b = true <-> a = b.
Proof. unfold same_key. destruct (list_eq_dec Z.eq_dec a b); split; congruence. Qed.
Lemma same_key_neq a b : a <> b -> same_key a b = false.
Proof. intros H. destruct (same_key a b) eqn:E; auto. apply same_key_eq in E. contradiction. Qed.
Lemma same_key_refl a : same_key a a = true. Proof. apply same_key_eq. reflexivity. Qed.

Lemma lookup_remove_same k l : lookup k (remove k l) = None.
Proof.
  induction l as [|[k' s] l IH]; cbn [remove filter fst lookup]; auto. fold (remove k l). destruct (same_key k k') eqn:E; cbn [negb]; auto.
  cbn [lookup]. rewrite E. exact IH.
Qed.
Lemma lookup_remove k k' l : k <> k' -> lookup k (remove k' l) = lookup k l.
Proof.
  intros N. induction l as [|[x s] l IH]; cbn [remove filter fst lookup]; auto. fold (remove k' l). destruct (same_key k' x) eqn:E; cbn [negb].
  - apply same_key_eq in E. subst x. rewrite (same_key_neq k k') by auto. exact IH.
  - cbn [lookup]. rewrite IH. reflexivity.
Qed.
Lemma lookup_replace k k' s l : k <> k' -> lookup k (replace k' s l) = lookup k l.
Proof.
  intros N. induction l as [|[x s0] l IH]; cbn [replace map fst lookup]; auto. fold (replace k' s l). destruct (same_key k' x) eqn:E.
  - apply same_key_eq in E. subst x. rewrite (same_key_neq k k') by auto. exact IH.
  - rewrite IH. reflexivity.
Qed.
Lemma lookup_replace_same k s s0 l : lookup k l = Some s0 -> lookup k (replace k s l) = Some s.
Proof.
  induction l as [|[x s1] l IH]; cbn [replace map fst lookup]; [discriminate|]. fold (replace k s l). destruct (same_key k x) eqn:E; intros H.
  - rewrite same_key_refl. reflexivity.
  - rewrite E. auto.
Qed.
(** keys of the cache are different from each other *)
Definition keys (l : list (key * rstate)) : list key := map fst l.
Lemma keys_filter g l : NoDup (keys l) -> NoDup (keys (filter g l)).
Proof.
  induction l as [|e l IH]; cbn [filter keys map]; auto. intros N. inversion N as [|? ? H1 H2]; subst. destruct (g e); [|auto]. cbn [map]. constructor; [|apply IH; auto].
  intros H. apply H1. apply in_map_iff in H. destruct H as (x & E & Hx). apply filter_In in Hx. unfold keys. apply in_map_iff. exists x. tauto.
Qed.
Lemma keys_replace k s l : keys (replace k s l) = keys l.
Proof.
  unfold keys, replace. rewrite map_map. apply map_ext. intros [x s0]. cbn. destruct (same_key k x) eqn:E; auto. apply same_key_eq in E. auto.
Qed.
Lemma lookup_none k l : lookup k l = None <-> ~ In k (keys l).
Proof.
  induction l as [|[x s] l IH]; cbn [lookup keys map fst In]; [tauto|]. destruct (same_key k x) eqn:E.
  - apply same_key_eq in E. subst. split; [discriminate|tauto].
  - rewrite IH. unfold keys. split; [|tauto]. intros N [H|H]; [|auto]. subst. rewrite same_key_refl in E. discriminate.
Qed.
Lemma lookup_filter k g l : NoDup (keys l) -> lookup k (filter g l) = match lookup k l with Some s => if g (k, s) then Some s else None | None => None end.
Proof.
  induction l as [|[x s] l IH]; cbn [filter lookup keys map fst]; auto. intros N. inversion N as [|? ? H1 H2]; subst. destruct (same_key k x) eqn:E.
  - apply same_key_eq in E. subst x. destruct (g (k, s)) eqn:G; cbn [lookup]; [rewrite same_key_refl; auto|].
    rewrite IH by auto. apply lookup_none in H1. rewrite H1. reflexivity.
  - destruct (g (x, s)); cbn [lookup]; [rewrite E|]; apply IH; auto.
Qed.

(** * the filter *)
Lemma in_zrange n x : In x (zrange n) <-> 0 <= x < n.
Proof.
  unfold zrange. rewrite in_map_iff. split.
  - intros (k & <- & H). apply in_seq in H. lia.
  - intros H. exists (Z.to_nat x). split; [lia|]. apply in_seq. lia.
Qed.
Lemma cubes : forallb (fun n => (cube_root n * cube_root n * cube_root n <=? n) && (n <? (cube_root n + 1) * (cube_root n + 1) * (cube_root n + 1))) (zrange 512) = true.
Proof. vm_compute. reflexivity. Qed.
Lemma cube_spec n : 0 <= n < 512 -> 0 <= cube_root n /\ cube_root n * cube_root n * cube_root n <= n < (cube_root n + 1) * (cube_root n + 1) * (cube_root n + 1).
Proof.
  intros H. split; [unfold cube_root; lia|]. pose proof cubes as C. rewrite forallb_forall in C. specialize (C n). rewrite in_zrange in C. specialize (C H). lia.
Qed.
Definition level (peers : Z) : Z := Z.max 1 (cube_root peers).
Lemma level_range n : 0 <= n < 512 -> 1 <= level n <= 7.
Proof. intros H. pose proof (cube_spec n H). unfold level. assert (cube_root n <= 7) by nia. lia. Qed.
Lemma cube_mono a b : 0 <= a <= b -> a * a * a <= b * b * b.
Proof. intros H. apply Z.mul_le_mono_nonneg; [nia|nia|lia|lia]. Qed.
Lemma cube_less a b : 0 <= a -> 0 <= b -> a * a * a < b * b * b -> a < b.
Proof. intros Ha Hb H. destruct (Z.lt_ge_cases a b) as [|L]; auto. pose proof (cube_mono b a ltac:(lia)). lia. Qed.
Lemma level_between m n : 1 <= m <= 7 -> 0 <= n < (m + 1) * (m + 1) * (m + 1) -> m = 1 \/ m * m * m <= n -> level n = m.
Proof.
  intros Hm H H2. pose proof (cube_mono (m + 1) 8 ltac:(lia)) as C8. pose proof (cube_spec n ltac:(lia)) as (A & B). unfold level. set (c := cube_root n) in *. clearbody c.
  assert (c < m + 1) by (apply cube_less; lia). destruct H2 as [->|H2]; [lia|]. assert (m < c + 1) by (apply cube_less; lia). lia.
Qed.
Definition good (s : decay_state) : Prop := exists m, 1 <= m <= 7 /\ sz s = m * 8192 /\ shift s = m.
Definition tidy_spec (s : decay_state) (m : Z) : decay_state :=
  let s1 := dstep s DDecay in dstep (if sz s =? m * 8192 then s1 else dstep s1 (DResize (m * 8192))) (DShift m).
Lemma good_dvalid s : good s -> dvalid s.
Proof. intros (m & H & E & F). split; lia. Qed.
Lemma tidy_good s m : 1 <= m <= 7 -> good (tidy_spec s m).
Proof. intros H. exists m. split; auto. unfold tidy_spec. destruct (Z.eqb_spec (sz s) (m * 8192)); cbn; auto. Qed.
Lemma tidy_ok time_of st now peers s : good s -> DecInv 16 s (seen_filter st) -> 0 <= peers < 512 ->
  exists f, cleanup time_of st now peers = Ok (mkParts f (filter (fun e => negb (outdated time_of now (snd e))) (waiting st))) /\ DecInv 16 (tidy_spec s (level peers)) f.
Proof.
  intros G I H. destruct (good_dvalid s G) as [V1 V2]. destruct (dec_decay 16 W16 s _ V1 V2 I) as (f & E & I1). unfold cleanup. rewrite E. cbn [obind].
  assert (U : u8 (cube_root (u16 peers)) = cube_root peers).
  { rewrite (u16_id peers) by lia. pose proof (cube_spec peers H). apply u8_id. nia. }
  rewrite U. pose proof (cube_spec peers H) as (A & _). pose proof (level_range peers H) as L.
  assert (E1 : (if 0 <? cube_root peers then cube_root peers * FILTER_SIZE else FILTER_SIZE) = level peers * 8192).
  { unfold level, FILTER_SIZE. destruct (Z.ltb_spec 0 (cube_root peers)); lia. }
  assert (E2 : (if 1 <? cube_root peers then cube_root peers else 1) = level peers).
  { unfold level. destruct (Z.ltb_spec 1 (cube_root peers)); lia. }
  cbv zeta. rewrite E1, E2. set (m := level peers) in *. clearbody m. assert (Sf : size f = sz s) by (destruct I1; cbn in *; auto). rewrite Sf. unfold tidy_spec.
  destruct (sz s =? m * 8192) eqn:Q.
  - cbn [obind]. eexists. split; [reflexivity|]. destruct I1. constructor; auto.
  - destruct (dec_resize 16 W16 (dstep s DDecay) f (m * 8192)) as (f2 & E3 & I2); auto; [lia|rewrite <- (Z.mul_1_r 8), <- Z.mul_mod_idemp_r by lia; replace (8192 mod (8 * 1)) with 0 by reflexivity; rewrite Z.mul_0_r; reflexivity|].
    rewrite E3. cbn [obind]. eexists. split; [reflexivity|]. destruct I2. constructor; auto.
Qed.
Lemma start_inv : DecInv 16 (mkDecay 8192 1 (fun _ => None)) (seen_filter start) /\ good (mkDecay 8192 1 (fun _ => None)).
Proof. split; [apply (dec_create 16); lia|]. exists 1. cbn. lia. Qed.

(** * one part of a message *)
Lemma arrive_effect fuel st k p r st1 : arrive fuel st k p = Ok (r, st1) ->
  (forall k2, k2 <> k -> lookup k2 (waiting st1) = lookup k2 (waiting st)) /\ (NoDup (keys (waiting st)) -> NoDup (keys (waiting st1))) /\
  match r with
  | None => seen_filter st1 = seen_filter st
  | Some _ => decaying_check (seen_filter st) k = Ok false /\ decaying_add (seen_filter st) k = Ok (seen_filter st1)
  end.
Proof.
  unfold arrive. destruct (decaying_check (seen_filter st) k) as [seen| |]; cbn [obind]; [|discriminate|discriminate].
  destruct seen; [intros E; injection E as <- <-; auto|]. destruct (1 <? pparts p).
  - destruct (lookup k (waiting st)) as [s|] eqn:L.
    + destruct (add_chunk fuel s p) as [[b s']| |]; cbn [obind]; [|discriminate|discriminate]. destruct (reported_complete (Some s')).
      * destruct (decaying_add (seen_filter st) k) as [f| |] eqn:A; cbn [obind]; [|discriminate|discriminate]. intros E; injection E as <- <-. cbn [waiting seen_filter].
        split; [intros; apply lookup_remove; auto|]. split; [apply keys_filter|auto].
      * intros E; injection E as <- <-. cbn [waiting seen_filter]. split; [intros; apply lookup_replace; auto|]. split; [rewrite keys_replace; auto|reflexivity].
    + destruct (first_chunk p) as [[b s]| |]; cbn [obind]; [|discriminate|discriminate]. intros E; injection E as <- <-. cbn [waiting seen_filter lookup].
      split; [intros k2 N; rewrite same_key_neq by auto; reflexivity|]. split; [|reflexivity]. intros N. cbn [keys map fst]. constructor; auto. apply lookup_none. exact L.
  - destruct (first_chunk p) as [[b s]| |]; cbn [obind]; [|discriminate|discriminate]. destruct (decaying_add (seen_filter st) k) as [f| |] eqn:A; cbn [obind]; [|discriminate|discriminate].
    intros E; injection E as <- <-. cbn [waiting seen_filter]. auto.
Qed.
Lemma add_inv s f k f1 : good s -> DecInv 16 s f -> decaying_add f k = Ok f1 -> DecInv 16 (dstep s (DAdd k)) f1 /\ good (dstep s (DAdd k)).
Proof.
  intros G I E. split; [|destruct G as (m & H); exists m; exact H]. destruct (good_dvalid s G) as [V1 _]. destruct (Z.eq_dec (free_items f) 0) as [Z0|N]; [unfold decaying_add in E; rewrite Z0 in E; discriminate|].
  destruct (dec_add 16 W16 s f k ltac:(lia) I N) as (f' & E' & I' & _). congruence.
Qed.
Definition unseen (w : Z) (s : decay_state) : Prop := since s (w mod sz s) = None.
Lemma unseen_check w k s f : good s -> DecInv 16 s f -> In w k -> unseen w s -> decaying_check f k = Ok false.
Proof.
  intros G I H U. destruct (good_dvalid s G) as [V1 _]. rewrite (dec_check 16 W16 s f k) by (auto; lia). f_equal. unfold remembered.
  destruct (forallb _ k) eqn:F; auto. rewrite forallb_forall in F. specialize (F w H). rewrite U in F. discriminate.
Qed.
Lemma unseen_add w k s : good s -> (forall v, In v k -> v mod 8192 <> w mod 8192) -> unseen w s -> unseen w (dstep s (DAdd k)).
Proof.
  intros (m & Hm & E & _) H U. unfold unseen. cbn [dstep sz since]. destruct (existsb (fun v => v mod sz s =? w mod sz s) k) eqn:X; [|exact U].
  apply existsb_exists in X. destruct X as (v & Hv & Q). exfalso. apply (H v Hv). apply Z.eqb_eq in Q. rewrite E in Q.
  rewrite (Znumtheory.Zmod_div_mod 8192 (m * 8192) v), (Znumtheory.Zmod_div_mod 8192 (m * 8192) w), Q by (try (exists m); lia). reflexivity.
Qed.
Lemma unseen_tidy w s m : unseen w s -> unseen w (tidy_spec s m).
Proof. unfold unseen, tidy_spec. intros U. destruct (sz s =? m * 8192); cbn [dstep sz since]; [rewrite U; reflexivity|reflexivity]. Qed.

Definition Inv (st : parts_state) (s : decay_state) : Prop := DecInv 16 s (seen_filter st) /\ good s /\ NoDup (keys (waiting st)).
Lemma start_Inv : Inv start (mkDecay 8192 1 (fun _ => None)).
Proof. destruct start_inv. split; auto. split; auto. constructor. Qed.

Lemma handed_app k a b : handed k (a ++ b) = handed k a ++ handed k b.
Proof. induction a as [|[x s] a IH]; cbn [app handed]; auto. destruct (list_eq_dec Z.eq_dec k x); cbn [app]; congruence. Qed.
Lemma own_app k a b : own k (a ++ b) = own k a ++ own k b.
Proof. induction a as [|[x p|n q] a IH]; cbn [app own]; auto. destruct (list_eq_dec Z.eq_dec k x); cbn [app]; congruence. Qed.
Lemma history_app fuel time_of a : forall st b out st', history fuel time_of st (a ++ b) = Ok (out, st') ->
  exists o1 st1 o2, history fuel time_of st a = Ok (o1, st1) /\ history fuel time_of st1 b = Ok (o2, st') /\ out = o1 ++ o2.
Proof.
  induction a as [|e a IH]; intros st b out st' E; cbn [app history] in *; [exists [], st, out; auto|].
  destruct (react fuel time_of st e) as [[o st0]| |]; cbn [obind] in *; [|discriminate|discriminate].
  destruct (history fuel time_of st0 (a ++ b)) as [[o2 st2]| |] eqn:H; cbn [obind] in *; [|discriminate|discriminate]. injection E as <- <-.
  destruct (IH _ _ _ _ H) as (o1 & st1 & o3 & E1 & E2 & ->). rewrite E1. cbn [obind]. exists (o ++ o1), st1, o3. rewrite app_assoc. auto.
Qed.

(** an event that does not concern message [k] *)
Definition foreign (time_of : list Z -> Z * Z) (k : key) (w : Z) (st : parts_state) (e : event) : Prop :=
  match e with
  | Part k' _ => k' <> k /\ forall v, In v k' -> v mod 8192 <> w mod 8192
  | Tidy now peers => 0 <= peers < 512 /\ forall r, lookup k (waiting st) = Some r -> outdated time_of now r = false
  end.
Lemma step_other fuel time_of st e o st1 k w s : Inv st s -> unseen w s -> foreign time_of k w st e -> react fuel time_of st e = Ok (o, st1) ->
  handed k o = [] /\ lookup k (waiting st1) = lookup k (waiting st) /\ exists s1, Inv st1 s1 /\ unseen w s1.
Proof.
  intros (I & G & N) U F E. destruct e as [k' p|now peers]; cbn [react foreign] in *.
  - destruct F as [Nk F]. destruct (arrive fuel st k' p) as [[r st2]| |] eqn:A; cbn [obind] in E; [|discriminate|discriminate]. injection E as <- <-.
    destruct (arrive_effect _ _ _ _ _ _ A) as (L & ND & R). split; [destruct r; cbn [handed]; auto; destruct (list_eq_dec Z.eq_dec k k'); congruence|].
    split; [apply L; auto|]. destruct r as [r|].
    + destruct R as [_ R]. destruct (add_inv _ _ _ _ G I R) as [I1 G1]. exists (dstep s (DAdd k')). split; [split; [exact I1|split; [exact G1|auto]]|]. apply unseen_add; auto.
    + exists s. split; [|exact U]. split; [rewrite R; auto|]. auto.
  - destruct F as [P F]. destruct (tidy_ok time_of st now peers s G I P) as (f & E1 & I1). rewrite E1 in E. cbn [obind] in E. injection E as <- <-. cbn [handed waiting].
    split; auto. split.
    + rewrite lookup_filter by auto. cbn [snd]. destruct (lookup k (waiting st)) as [r|]; auto. rewrite (F r eq_refl). reflexivity.
    + exists (tidy_spec s (level peers)). split; [split; [exact I1|]; split; [apply tidy_good, level_range; auto|cbn; apply keys_filter; auto]|apply unseen_tidy; auto].
Qed.
(** events of other messages never put [k] into the cache *)
Lemma step_away fuel time_of k evs : forall st out st', own k evs = [] -> lookup k (waiting st) = None -> NoDup (keys (waiting st)) -> history fuel time_of st evs = Ok (out, st') ->
  handed k out = [] /\ lookup k (waiting st') = None.
Proof.
  induction evs as [|e evs IH]; intros st out st' O L N E; cbn [history own] in *; [injection E as <- <-; auto|].
  destruct (react fuel time_of st e) as [[o st0]| |] eqn:R; cbn [obind] in *; [|discriminate|discriminate].
  destruct (history fuel time_of st0 evs) as [[o2 st2]| |] eqn:H; cbn [obind] in *; [|discriminate|discriminate]. injection E as <- <-. rewrite handed_app.
  destruct e as [k' p|now peers]; cbn [react] in R.
  - destruct (list_eq_dec Z.eq_dec k k') as [|Nk]; [discriminate|]. destruct (arrive fuel st k' p) as [[r st1]| |] eqn:A; cbn [obind] in R; [|discriminate|discriminate]. injection R as <- <-.
    destruct (arrive_effect _ _ _ _ _ _ A) as (L1 & ND & _). destruct (IH _ _ _ O ltac:(rewrite L1; auto) (ND N) H) as [H1 H2]. split; auto. rewrite H1, app_nil_r.
    destruct r; cbn [handed]; auto. destruct (list_eq_dec Z.eq_dec k k'); congruence.
  - assert (Ew : exists g, waiting st0 = filter g (waiting st) /\ o = []).
    { unfold cleanup in R. destruct (decaying_decay (seen_filter st)); cbn [obind] in R; [|discriminate|discriminate]. cbv zeta in R. match type of R with context [obind (if ?c then ?a else ?b) _] => destruct (if c then a else b) end; cbn [obind] in R; [|discriminate|discriminate]. injection R as <- <-. eexists. split; reflexivity. }
    destruct Ew as (g & Ew & ->). destruct (IH st0 o2 st2 O) as [H1 H2]; auto.
    + rewrite Ew, lookup_filter by auto. rewrite L. reflexivity.
    + rewrite Ew. apply keys_filter; auto.
Qed.

(** * all parts of a message carry its header *)
Definition same_header (h : list Z) (o : option packet) : Prop := match o with Some q => pheader q = h | None => True end.
Lemma upd_forall (A : Type) (P : A -> Prop) l i x : Forall P l -> P x -> Forall P (upd l i x).
Proof.
  intros F H. revert i. induction F as [|y l Hy F IH]; intros [|i]; cbn [upd]; constructor; auto.
Qed.
Lemma add_headers h fuel : forall s p b s', Forall (same_header h) (slots s) -> pheader p = h -> add_chunk fuel s p = Ok (b, s') -> Forall (same_header h) (slots s').
Proof.
  induction fuel as [|fuel IH]; intros s p b s' F Hp; cbn [add_chunk]; [discriminate|]. destruct (pmac16 p =? base s); [intros E; injection E as <- <-; auto|].
  destruct (pmac16 p <? base s).
  - destruct (slots s) as [|[old|] rest] eqn:Es; [discriminate| |discriminate]. destruct (add_chunk fuel _ old) as [[b1 s1]| |] eqn:A; cbn [obind]; [|discriminate|discriminate]. intros E; injection E as <- <-.
    inversion F as [|? ? F1 F2]; subst. eapply IH; [| |exact A]; [cbn [slots]; constructor; auto; reflexivity|exact F1].
  - set (i := Z.to_nat (u16 (pmac16 p - base s))). destruct (length (slots s) <=? i)%nat eqn:Li; [discriminate|]. destruct (nth i (slots s) None) as [old|] eqn:Nt.
    + destruct (mac_eqb p old); [intros E; injection E as <- <-; auto|]. destruct (add_chunk fuel _ old) as [[b1 s1]| |] eqn:A; cbn [obind]; [|discriminate|discriminate]. intros E; injection E as <- <-.
      eapply IH; [| |exact A]; [cbn [slots]; apply upd_forall; auto; exact Hp|]. rewrite Forall_forall in F. specialize (F (Some old)). apply F. rewrite <- Nt. apply nth_In. apply Nat.leb_gt in Li. exact Li.
    + intros E; injection E as <- <-. cbn [slots]. apply upd_forall; auto; exact Hp.
Qed.
Lemma receive_headers h fuel ps : forall o s, Forall (fun p => pheader p = h) ps -> match o with Some s0 => Forall (same_header h) (slots s0) | None => True end ->
  receive_all fuel o ps = Ok (Some s) -> Forall (same_header h) (slots s).
Proof.
  induction ps as [|p ps IH]; intros o s F H E; cbn [receive_all] in E; [injection E as ->; exact H|]. inversion F as [|? ? F1 F2]; subst.
  destruct (Message_Model.receive fuel o p) as [[b s1]| |] eqn:R; cbn [obind] in E; [|discriminate|discriminate]. apply (IH (Some s1)); auto. destruct o as [s0|]; cbn [Message_Model.receive] in R.
  - eapply add_headers; [exact H| |exact R]. reflexivity.
  - unfold first_chunk in R. destruct (pparts p =? 0); [discriminate|]. injection R as <- <-. cbn [slots]. constructor; [reflexivity|]. apply Forall_forall. intros x Hx. apply repeat_spec in Hx. subst. exact Logic.I.
Qed.
Lemma not_outdated time_of h now s : Forall (same_header h) (slots s) -> now < fst (time_of h) + snd (time_of h) * 1000000 -> outdated time_of now s = false.
Proof.
  intros F H. unfold outdated. destruct (slots s) as [|[p0|] l]; auto. inversion F as [|? ? F1 _]; subst. cbn [same_header] in F1. rewrite F1. destruct (time_of h) as [t ttl]. cbn [fst snd] in H.
  unfold is_expired, expiry. apply Z.leb_gt. lia.
Qed.

(** * a message on its way into the cache *)
From Verif Require Import Message_Props.
Definition pending (fuel : nat) (k : key) (ps : list packet) (st : parts_state) : Prop :=
  receive_all fuel None ps = Ok (lookup k (waiting st)).
Lemma receive_step fuel o p ps : receive_all fuel o (ps ++ [p]) = obind (receive_all fuel o ps) (fun o' => obind (Message_Model.receive fuel o' p) (fun '(_, s) => Ok (Some s))).
Proof.
  revert o. induction ps as [|q ps IH]; intros o; cbn [app receive_all obind]; [reflexivity|]. destruct (Message_Model.receive fuel o q) as [[b s]| |]; cbn [obind]; auto.
Qed.
(** the arrival of a part of [k], as long as the filter does not know [k] *)
Lemma arrive_own fuel st k p r st1 w s ps : Inv st s -> unseen w s -> In w k -> 1 < pparts p -> pending fuel k ps st -> arrive fuel st k p = Ok (r, st1) ->
  exists s', receive_all fuel None (ps ++ [p]) = Ok (Some s') /\
    if reported_complete (Some s') && match ps with [] => false | _ => true end then r = Some s' /\ lookup k (waiting st1) = None /\ NoDup (keys (waiting st1))
    else r = None /\ pending fuel k (ps ++ [p]) st1 /\ Inv st1 s.
Proof.
  intros (I & G & N) U Hw Hp P E. pose proof (arrive_effect _ _ _ _ _ _ E) as (_ & ND & Rf). unfold arrive in E. rewrite (unseen_check w k s) in E by auto. cbn [obind] in E.
  replace (1 <? pparts p) with true in E by lia. unfold pending in *. rewrite receive_step, P. cbn [obind]. destruct (lookup k (waiting st)) as [s0|] eqn:L; cbn [Message_Model.receive].
  - destruct (add_chunk fuel s0 p) as [[b s']| |] eqn:A; cbn [obind] in E |- *; [|discriminate|discriminate]. exists s'. split; auto.
    destruct ps as [|q ps]; [cbn in P; discriminate|]. rewrite andb_true_r. destruct (reported_complete (Some s')).
    + destruct (decaying_add (seen_filter st) k) as [f| |]; cbn [obind] in E; [|discriminate|discriminate]. injection E as <- <-. cbn [waiting] in *. split; auto. split; [apply lookup_remove_same|auto].
    + injection E as <- <-. split; auto. cbn [waiting seen_filter]. split; [|split; [exact I|split; auto]].
      rewrite (lookup_replace_same k s' s0) by auto. reflexivity.
  - destruct (first_chunk p) as [[b s']| |] eqn:A; cbn [obind] in E |- *; [|discriminate|discriminate]. exists s'. split; auto. injection E as <- <-.
    assert (ps = []) as ->.
    { destruct ps as [|q ps]; auto. exfalso. cbn [receive_all] in P. destruct (Message_Model.receive fuel None q) as [[b0 x]| |]; cbn [obind] in P; [|discriminate|discriminate].
      clear - P. revert x P. induction ps as [|z ps IH]; intros x P; cbn [receive_all] in P; [discriminate|]. destruct (Message_Model.receive fuel (Some x) z) as [[b1 y]| |]; cbn [obind] in P; [eauto|discriminate|discriminate]. }
    rewrite andb_false_r. split; auto. cbn [waiting lookup seen_filter] in *. rewrite same_key_refl. split; [reflexivity|]. split; [exact I|split; auto].
Qed.
Section Message.
  Variables (fuel : nat) (time_of : list Z -> Z * Z) (k : key) (w : Z) (m : message).
  Hypotheses (Wf : well_formed m) (Nw : no_id_wrap m) (P1 : 1 < parts m) (Fu : parts m < Z.of_nat fuel) (Hw : In w k).
  Lemma pending_header cs st now peers r : pending fuel k (map (packet_of m) cs) st -> in_time time_of (header m) (Tidy now peers) -> lookup k (waiting st) = Some r -> outdated time_of now r = false.
  Proof.
    intros P [_ T] L. unfold pending in P. rewrite L in P. apply (not_outdated time_of (header m)); auto. eapply (receive_headers (header m) fuel _ None); [|exact Logic.I|exact P].
    apply Forall_forall. intros x Hx. apply in_map_iff in Hx. destruct Hx as (c & <- & _). reflexivity.
  Qed.
  Lemma progress evs : forall done cs st s out st' missing, Inv st s -> unseen w s -> (forall k' p v, In (Part k' p) evs -> k' <> k -> In v k' -> v mod 8192 <> w mod 8192) ->
    Forall (in_time time_of (header m)) evs -> own k evs = map (packet_of m) cs -> NoDup (done ++ cs) -> (forall c, In c (done ++ cs) -> Z.of_nat c < parts m) ->
    Z.of_nat missing < parts m -> ~ In missing (done ++ cs) -> pending fuel k (map (packet_of m) done) st -> history fuel time_of st evs = Ok (out, st') ->
    handed k out = [] /\ pending fuel k (map (packet_of m) (done ++ cs)) st' /\ exists s', Inv st' s' /\ unseen w s'.
  Proof.
    induction evs as [|e evs IH]; intros done cs st s out st' missing Iv U Ap T O ND Hb Hm Hn P E; cbn [history own] in *.
    - injection E as <- <-. destruct cs; [|discriminate]. rewrite app_nil_r. split; auto. split; eauto.
    - destruct (react fuel time_of st e) as [[o st0]| |] eqn:R; cbn [obind] in *; [|discriminate|discriminate].
      destruct (history fuel time_of st0 evs) as [[o2 st2]| |] eqn:H; cbn [obind] in *; [|discriminate|discriminate]. injection E as <- <-. rewrite handed_app. inversion T as [|? ? T1 T2]; subst.
      assert (Other : foreign time_of k w st e -> own k evs = map (packet_of m) cs -> handed k o ++ handed k o2 = [] /\ pending fuel k (map (packet_of m) (done ++ cs)) st2 /\ exists s', Inv st2 s' /\ unseen w s').
      { intros Fo Oe. destruct (step_other fuel time_of st e o st0 k w s Iv U Fo R) as (A & B & s1 & I1 & U1). rewrite A. cbn [app].
        apply (IH done cs st0 s1 o2 st2 missing); auto; [intros; eapply Ap; [right; eassumption|auto|auto]|]. unfold pending in *. rewrite B. exact P. }
      destruct e as [k' p|now peers].
      + destruct (list_eq_dec Z.eq_dec k k') as [<-|Nk].
        * clear Other. destruct cs as [|c cs]; [discriminate|]. injection O as -> O. cbn [react] in R. destruct (arrive fuel st k (packet_of m c)) as [[r st1]| |] eqn:A; cbn [obind] in R; [|discriminate|discriminate]. injection R as <- <-.
          destruct (arrive_own fuel st k (packet_of m c) r st1 w s (map (packet_of m) done) Iv U Hw ltac:(cbn; lia) P A) as (s' & E1 & C).
          replace (map (packet_of m) done ++ [packet_of m c]) with (map (packet_of m) (done ++ [c])) in * by (rewrite map_app; reflexivity).
          replace (done ++ c :: cs) with ((done ++ [c]) ++ cs) in * by (rewrite <- app_assoc; reflexivity).
          assert (NDc : NoDup (done ++ [c])) by (clear - ND; revert ND; generalize (done ++ [c]); intros l; induction l as [|x l IHl]; intros ND; [constructor|]; inversion ND as [|? ? X1 X2]; subst; constructor; [intros Hx; apply X1; apply in_or_app; auto|auto]).
          destruct (C32_not_complete_while_missing m (done ++ [c]) missing fuel) as (o' & E2 & NC); auto; [intros; apply Hb; apply in_or_app; auto|intros Hx; apply Hn; apply in_or_app; auto|].
          rewrite E1 in E2. injection E2 as <-. rewrite NC in C. cbn [andb] in C. destruct C as (-> & P' & I'). cbn [handed app].
          apply (IH (done ++ [c]) cs st1 s o2 st2 missing); auto. intros; eapply Ap; [right; eassumption|auto|auto].
        * apply Other; auto. split; [auto|]. intros v Hv. eapply Ap; [left; reflexivity|auto|auto].
      + apply Other; auto. split; [apply T1|]. intros r L. eapply pending_header; eauto.
  Qed.
End Message.

(** * at most once *)
Lemma react_inv fuel time_of st e o st1 s n : Inv st s -> shift s = level n -> few e -> react fuel time_of st e = Ok (o, st1) ->
  exists s1, Inv st1 s1 /\ shift s1 = level (last_count n [e]).
Proof.
  intros (I & G & N) Hs F E. destruct e as [k' p|now peers]; cbn [react last_count few] in *.
  - destruct (arrive fuel st k' p) as [[r st2]| |] eqn:A; cbn [obind] in E; [|discriminate|discriminate]. injection E as <- <-. destruct (arrive_effect _ _ _ _ _ _ A) as (_ & ND & R). destruct r as [r|].
    + destruct R as [_ R]. destruct (add_inv _ _ _ _ G I R) as [I1 G1]. exists (dstep s (DAdd k')). split; [split; [exact I1|split; auto]|exact Hs].
    + exists s. split; [split; [rewrite R; exact I|split; auto]|exact Hs].
  - destruct (tidy_ok time_of st now peers s G I F) as (f & E1 & I1). rewrite E1 in E. cbn [obind] in E. injection E as <- <-. exists (tidy_spec s (level peers)).
    split; [split; [exact I1|split; [apply tidy_good, level_range; auto|cbn; apply keys_filter; auto]]|reflexivity].
Qed.
Lemma inv_history fuel time_of evs : forall st s n out st', Inv st s -> shift s = level n -> Forall few evs -> history fuel time_of st evs = Ok (out, st') ->
  exists s', Inv st' s' /\ shift s' = level (last_count n evs).
Proof.
  induction evs as [|e evs IH]; intros st s n out st' I Hs F E; cbn [history] in E; [injection E as <- <-; eauto|]. inversion F as [|? ? F1 F2]; subst.
  destruct (react fuel time_of st e) as [[o st0]| |] eqn:R; cbn [obind] in *; [|discriminate|discriminate]. destruct (history fuel time_of st0 evs) as [[o2 st2]| |] eqn:H; cbn [obind] in *; [|discriminate|discriminate]. injection E as <- <-.
  destruct (react_inv fuel time_of st e o st0 s n I Hs F1 R) as (s1 & I1 & H1). destruct (IH st0 s1 _ o2 st2 I1 H1 F2 H) as (s' & I' & H'). exists s'. split; [exact I'|]. rewrite H'. f_equal. destruct e; reflexivity.
Qed.
Definition known (k : key) (j : Z) (s : decay_state) : Prop := forall w, In w k -> exists i, since s (w mod sz s) = Some i /\ 0 <= i <= j.
Lemma known_check k j s f : good s -> DecInv 16 s f -> known k j s -> j < 16 -> decaying_check f k = Ok true.
Proof.
  intros G I K H. destruct (good_dvalid s G) as [V1 _]. rewrite (dec_check 16 W16 s f k) by (auto; lia). f_equal. unfold remembered. apply forallb_forall. intros w Hw. destruct (K w Hw) as (i & -> & Hi). lia.
Qed.
Lemma tidied_nonneg evs : 0 <= tidied evs. Proof. induction evs as [|[]]; cbn [tidied]; lia. Qed.
Lemma once_history fuel time_of m k evs : forall st s j out st', Inv st s -> shift s = m -> 0 <= j -> known k j s -> Forall (between_cubes m) evs -> j + tidied evs * m < 16 ->
  history fuel time_of st evs = Ok (out, st') -> handed k out = [].
Proof.
  induction evs as [|e evs IH]; intros st s j out st' I Hs Hj K F T E; cbn [history] in E; [injection E as <- <-; reflexivity|]. inversion F as [|? ? F1 F2]; subst.
  destruct (react fuel time_of st e) as [[o st0]| |] eqn:R; cbn [obind] in *; [|discriminate|discriminate]. destruct (history fuel time_of st0 evs) as [[o2 st2]| |] eqn:H; cbn [obind] in *; [|discriminate|discriminate]. injection E as <- <-.
  rewrite handed_app. destruct I as (I & G & N). pose proof G as (m & Hm & Hsz & Hsh). pose proof (tidied_nonneg evs) as Tn. assert (Tm : 0 <= tidied evs * shift s) by (apply Z.mul_nonneg_nonneg; lia). destruct e as [k' p|now peers]; cbn [react between_cubes tidied] in *.
  - destruct (arrive fuel st k' p) as [[r st1]| |] eqn:A; cbn [obind] in R; [|discriminate|discriminate]. injection R as <- <-. pose proof (arrive_effect _ _ _ _ _ _ A) as (_ & ND & Rf). destruct r as [r|].
    + destruct Rf as [Ck Ad]. cbn [handed]. destruct (list_eq_dec Z.eq_dec k k') as [<-|Nk].
      { exfalso. rewrite (known_check k j s) in Ck by (auto; lia). discriminate. }
      destruct (add_inv _ _ _ _ G I Ad) as [I1 G1]. cbn [app]. apply (IH st1 (dstep s (DAdd k')) j o2 st2); auto; [split; [exact I1|split; auto]|].
      intros w Hw. destruct (K w Hw) as (i & Ei & Hi). cbn [dstep sz since]. destruct (existsb _ k'); [exists 0; split; [reflexivity|lia]|eauto].
    + cbn [handed app]. apply (IH st1 s j o2 st2); auto. split; [rewrite Rf; exact I|split; auto].
  - destruct F1 as [P1 P2]. rewrite Hsh in *. pose proof (level_between m peers Hm P1 P2) as L. pose proof (cube_mono (m + 1) 8 ltac:(lia)) as C8. destruct (tidy_ok time_of st now peers s G I ltac:(lia)) as (f & E1 & I1). rewrite E1 in R. cbn [obind] in R. injection R as <- <-. cbn [handed app].
    rewrite L in I1. assert (T2 : j + m + tidied evs * m < 16) by (rewrite Z.mul_add_distr_r in T; lia).
    refine (IH _ (tidy_spec s m) (j + m) o2 st2 _ eq_refl _ _ F2 T2 H); [split; [exact I1|split; [apply tidy_good; lia|cbn; apply keys_filter; auto]]|lia|].
    intros w Hw. destruct (K w Hw) as (i & Ei & Hi). unfold tidy_spec. replace (sz s =? m * 8192) with true by lia. cbn [dstep sz since]. rewrite Ei, Hsh. cbn [option_map]. exists (m + i). split; [reflexivity|lia].
Qed.
