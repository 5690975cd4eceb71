From Verif Require Import Base Jobqueue_Model Life_Model Life_Spec.

(** ** Starting threads *)
Lemma s8_small x : 0 <= x < 128 -> s8 x = x.
Proof. intros H. unfold s8. rewrite Z.mod_small by lia. destruct (Z.ltb_spec x 128); lia. Qed.
Lemma s8_range x : -128 <= s8 x < 128.
Proof. unfold s8. pose proof (Z.mod_pos_bound x 256 ltac:(lia)). destruct (Z.ltb_spec (x mod 256) 128); lia. Qed.

Lemma spawn_ends n : forall i pool, 0 <= i <= pool -> pool <= 127 -> pool - i <= Z.of_nat n ->
  snd (spawn n i pool) = true /\ Z.of_nat (length (fst (spawn n i pool))) = pool - i /\
  Forall (fun t => t = TManager \/ t = TWorker) (fst (spawn n i pool)) /\
  managers (fst (spawn n i pool)) = (if ((i =? 0) && (0 <? pool))%Z then 1 else 0)%nat.
Proof.
  induction n; intros i pool Hi Hp Hn; cbn [spawn].
  - destruct (Z.ltb_spec i pool); [lia|]. cbn. repeat split; auto; try lia.
    destruct (i =? 0) eqn:E, (0 <? pool) eqn:F; cbn; auto; lia.
  - destruct (Z.ltb_spec i pool).
    + rewrite s8_small by lia. specialize (IHn (i + 1) pool ltac:(lia) Hp ltac:(lia)).
      destruct (spawn n (i + 1) pool) as [l e]. cbn [fst snd] in *. destruct IHn as (A & B & C & D).
      split; auto. split; [cbn [length]; lia|]. split; [constructor; auto; destruct (i =? 0); auto|].
      unfold managers in *. cbn [filter]. replace (i + 1 =? 0) with false in D by lia. cbn [andb] in D.
      replace (0 <? pool) with true by lia. destruct (i =? 0) eqn:E; cbn [is_manager length andb]; lia.
    + cbn. repeat split; auto; try lia. destruct (i =? 0) eqn:E, (0 <? pool) eqn:F; cbn; auto; lia.
Qed.
Lemma spawn_forever n : forall i pool, i < 128 -> 128 <= pool -> snd (spawn n i pool) = false /\ length (fst (spawn n i pool)) = n.
Proof.
  induction n; intros i pool Hi Hp; cbn [spawn]; destruct (Z.ltb_spec i pool); try lia.
  - auto.
  - pose proof (s8_range (i + 1)). specialize (IHn (s8 (i + 1)) pool ltac:(lia) Hp).
    destruct (spawn n (s8 (i + 1)) pool) as [l e]. cbn in *. destruct IHn. split; auto.
Qed.

Lemma no_loops l ws : Forall (fun t => t = TManager \/ t = TWorker) ws -> filter (is_loop l) ws = [].
Proof. induction 1 as [|t ws [-> | ->] _ IH]; cbn; auto; destruct l; cbn; auto. Qed.

Lemma start_ok n : 0 <= n <= 130 ->
  let '(ts, js, e) := start_workers 200 n in
  e = true /\ Z.of_nat (length ts) = n /\ (forall l, served l ts js = 1%nat) /\
  managers ts = (if (0 <? n)%Z then 1 else 0)%nat.
Proof.
  intros Hn. unfold start_workers, u8.
  rewrite !Z.mod_small by (try rewrite Z.mod_small by lia; pose proof (Z.div_le_upper_bound n 2 65); pose proof (Z.div_pos n 2); lia).
  pose proof (Z.div_mod n 2 ltac:(lia)) as DM. pose proof (Z.mod_pos_bound n 2 ltac:(lia)) as MB.
  set (q := n / 2) in *. unfold serve.
  assert (K : forall p, 0 <= p <= 127 -> (p = 0 -> n = 0) ->
     let ws := fst (spawn 200 0 p) in snd (spawn 200 0 p) = true /\ Z.of_nat (length ws) = p /\
       (forall l, filter (is_loop l) ws = []) /\ managers ws = (if (0 <? p)%Z then 1 else 0)%nat).
  { intros p Hp Hz. pose proof (spawn_ends 200 0 p ltac:(lia) ltac:(lia) ltac:(lia)) as (A & B & C & D).
    cbn zeta. repeat split; auto; try lia. intros l. apply no_loops; auto. }
  assert (M : forall a b, managers (a ++ b) = (managers a + managers b)%nat).
  { intros. unfold managers. rewrite filter_app, app_length. auto. }
  assert (L : forall l a b, length (filter (is_loop l) (a ++ b)) = (length (filter (is_loop l) a) + length (filter (is_loop l) b))%nat).
  { intros. rewrite filter_app, app_length. auto. }
  repeat match goal with |- context [if ?a >? ?b then _ else _] => destruct (Z.gtb_spec a b) end;
  match goal with |- context [spawn 200 0 ?p] =>
    specialize (K p ltac:(lia) ltac:(lia)); cbn zeta in K; destruct (spawn 200 0 p) as [ws e] end;
  cbn [fst snd app] in *; destruct K as (A & B & C & D);
  (split; [auto|]; split; [cbn [length]; lia|]; split;
   [intros l; unfold served; specialize (C l); destruct l; cbn [filter is_loop same_loop]; rewrite ?C; reflexivity|]);
  unfold managers in *; cbn [filter is_manager length]; rewrite ?D;
  repeat match goal with |- context [?a <? ?b] => destruct (Z.ltb_spec a b) end; try reflexivity; try lia.
Qed.

Lemma start_forever n k : 131 <= n <= 255 ->
  let '(ts, js, e) := start_workers k n in e = false /\ (k <= length ts)%nat.
Proof.
  intros Hn. unfold start_workers, u8.
  assert (H2 : 0 <= n / 2 + 1 <= 128).
  { pose proof (Z.div_lt_upper_bound n 2 128 ltac:(lia) ltac:(lia)). pose proof (Z.div_pos n 2 ltac:(lia) ltac:(lia)). lia. }
  rewrite (Z.mod_small n) by lia. rewrite (Z.mod_small (n / 2 + 1)) by lia.
  pose proof (Z.div_mod n 2 ltac:(lia)) as DM. pose proof (Z.mod_pos_bound n 2 ltac:(lia)) as MB.
  set (q := n / 2) in *. unfold serve.
  repeat match goal with |- context [if ?a >? ?b then _ else _] => destruct (Z.gtb_spec a b) end; try lia.
  pose proof (spawn_forever k 0 (n - 1 - 1 - 1) ltac:(lia) ltac:(lia)) as [A B].
  destruct (spawn k 0 (n - 1 - 1 - 1)) as [ws e]. cbn in *. rewrite ?app_length. split; auto. lia.
Qed.

(** ** np_run *)
Lemma run_for_end : forall ts s now fin ran r s' rest, run_for s now fin ran ts = Ok (Some (r, s', rest)) ->
  exists before t, ts = before ++ t :: rest /\
    (fin <= t_now t \/ goes_on (t_status t) = false) /\
    Forall (fun t => t_now t < fin /\ goes_on (t_status t) = true) before /\
    (length r <= length ran + S (length before))%nat /\ exists new, r = ran ++ new.
Proof.
  induction ts as [|t ts IH]; intros s now fin ran r s' rest H; cbn [run_for] in H; [discriminate|].
  destruct (run_once s now t) as [[oj s1]| |]; cbn [obind] in H; try discriminate.
  destruct ((fin >? t_now t) && goes_on (t_status t)) eqn:E.
  - apply IH in H. destruct H as (before & t' & -> & A & B & C & new & D).
    exists (t :: before), t'. split; auto. split; auto.
    apply andb_prop in E as [E1 E2]. split; [constructor; auto; split; auto; lia|].
    destruct oj; [rewrite app_length in C; cbn [length] in *|]; (split; [cbn [length]; lia|]).
    + exists ([j] ++ new). rewrite D, <- app_assoc. auto.
    + eauto.
  - inversion H; subst. exists [], t. split; auto. split.
    { apply Bool.andb_false_iff in E as [E|E]; [left; lia|auto]. }
    split; auto. destruct oj; [rewrite app_length|]; cbn [length]; (split; [lia|]); eauto. exists []. rewrite app_nil_r. auto.
Qed.

(** ** Callbacks *)
Lemma entries_ok again : forall cs log gone tail, Forall (fun c => again c = false) cs ->
  run_entries again (map User (map Some cs) ++ tail) log gone = run_entries again tail (log ++ cs) gone.
Proof.
  induction cs as [|c cs IH]; intros log gone tail F; cbn.
  - rewrite app_nil_r. auto.
  - inversion F; subst. rewrite H1. rewrite IH by auto. rewrite <- app_assoc. auto.
Qed.

Lemma before_run again : forall l n, Forall no_destroy l -> Forall no_run l -> n_module n = None -> n_freed n = false ->
  api_steps again n l = Done n.
Proof.
  induction l as [|a l IH]; intros n D R M F; cbn; auto.
  inversion D; subst. inversion R; subst. destruct a; cbn in *; try contradiction.
  unfold api_add. rewrite F. unfold add_callback. rewrite M. apply IH; auto.
Qed.
Lemma while_running again : forall l n cs, Forall no_destroy l -> n_module n = Some cs -> n_freed n = false ->
  n_status n = np_running ->
  api_steps again n l = Done (mkNode np_running (Some (cs ++ registered l)) (n_log n) (n_left n) false).
Proof.
  induction l as [|a l IH]; intros n cs D M F St; cbn [api_steps].
  - cbn. rewrite app_nil_r. destruct n; cbn in *; subst; auto.
  - inversion D; subst. destruct a; cbn in H1; try contradiction.
    + cbn [api_step]. unfold api_run. rewrite F, St. change (np_running =? np_stopped) with false. cbv zeta iota. rewrite St. change (np_running =? np_shutdown) with false. cbv iota.
      rewrite (IH _ cs) by (cbn; auto). cbn. auto.
    + cbn [api_step]. unfold api_add, add_callback. rewrite F, M. rewrite (IH _ (cs ++ [c])) by (cbn; auto). cbn.
      rewrite <- app_assoc. auto.
Qed.

(** ** Threads of the node and of the application *)
Lemma upd_forall {A} (P : A -> Prop) l i x : Forall P l -> P x -> Forall P (upd l i x).
Proof.
  intros F H. revert i. induction F; intros [|i]; cbn; auto.
Qed.
Lemma nth_forall {A} (P : A -> Prop) l i x : Forall P l -> nth_error l i = Some x -> P x.
Proof. intros F H. apply nth_error_In in H. rewrite Forall_forall in F. auto. Qed.

Definition inside (p : apc) : bool :=
  match p with DSet | DBcast | DSig _ | DJoin _ | DFree => true | _ => false end.
Definition past_set (p : apc) : bool :=
  match p with DBcast | DSig _ | DJoin _ | DFree => true | _ => false end.
Definition joined (p : apc) (ts : list thread) : Prop :=
  match p with
  | DJoin k => forall i t, (i < k)%nat -> nth_error ts i = Some t -> ended t
  | DFree => Forall ended ts
  | _ => True
  end.
Definition sane (t : thread) : Prop := th_kind t = KLoop -> th_pc t <> WWait /\ th_pc t <> WBlocked.

Record good (w : life) : Prop := {
  g_sane : Forall sane (l_threads w);
  g_set : forall a, past_set (l_app w a) = true -> l_status w <> np_stopped;
  g_one : forall a b, inside (l_app w a) = true -> inside (l_app w b) = true -> a = b;
  g_flag : forall a, inside (l_app w a) = true -> l_flag w = true;
  g_join : forall a, joined (l_app w a) (l_threads w);
  g_freed : l_freed w = true -> Forall ended (l_threads w) /\ (forall a, inside (l_app w a) = false) }.

Lemma good0 : good life0.
Proof. constructor; cbn; auto; discriminate. Qed.

(** what happens to the threads in one step: ended ones stay ended *)
Definition keeps (l l' : list thread) : Prop :=
  length l = length l' /\ forall i t, nth_error l i = Some t -> ended t -> nth_error l' i = Some t \/ exists t', nth_error l' i = Some t' /\ ended t'.
Lemma keeps_joined l l' p : keeps l l' -> joined p l -> joined p l'.
Proof.
  intros [L K] J. destruct p; cbn in *; auto.
  - intros i t Hi E. destruct (nth_error l i) as [u|] eqn:N.
    + pose proof (J i u Hi N) as U. destruct (K i u N U) as [X|(t' & X & Y)]; rewrite X in E; inversion E; subst; auto.
    + apply nth_error_None in N. rewrite L in N. apply nth_error_None in N. congruence.
  - rewrite Forall_forall in *. intros t I. apply In_nth_error in I. destruct I as [i E].
    destruct (nth_error l i) as [u|] eqn:N.
    + pose proof (J u (nth_error_In _ _ N)) as U. destruct (K i u N U) as [X|(t' & X & Y)]; rewrite X in E; inversion E; subst; auto.
    + apply nth_error_None in N. rewrite L in N. apply nth_error_None in N. congruence.
Qed.
Lemma keeps_refl l : keeps l l.
Proof. split; auto. Qed.
Lemma keeps_upd l i t u : nth_error l i = Some t -> (ended t -> ended u) -> keeps l (upd l i u).
Proof.
  intros N E. split; [rewrite upd_length; auto|]. intros j v Hj Ev.
  destruct (Nat.eq_dec i j) as [->|Ne].
  - right. exists u. rewrite N in Hj. inversion Hj; subst. split; auto.
    apply upd_nth_error_eq. apply nth_error_Some. congruence.
  - left. rewrite upd_nth_error_neq; auto.
Qed.
Lemma keeps_wake l : keeps l (map wake l).
Proof.
  split; [rewrite map_length; auto|]. intros i t N E. left. rewrite nth_error_map, N. cbn.
  unfold wake, blocked. rewrite E. auto.
Qed.
Lemma sane_wake t : sane t -> sane (wake t).
Proof. unfold sane, wake. destruct (blocked t); cbn; auto. intros. split; discriminate. Qed.

Lemma app_eq w a p b : l_app (set_app w a p) b = if Nat.eqb b a then p else l_app w b.
Proof. reflexivity. Qed.

(** one application thread moves from its place to [p]; the threads become [l] *)
Lemma good_app w a p st fl fr n l : good w -> l_freed w = false ->
  Forall sane l -> keeps (l_threads w) l ->
  (fl = l_flag w \/ fl = true) ->
  (inside p = true -> fl = true /\ (inside (l_app w a) = true \/ l_flag w = false)) ->
  (l_status w <> np_stopped -> st <> np_stopped) -> (past_set p = true -> st <> np_stopped) ->
  joined p l ->
  (fr = true -> l_app w a = DFree /\ inside p = false) ->
  good (set_app (mkLife st fl fr n l (l_app w)) a p).
Proof.
  intros G F0 Sa K Fl Ins St1 St2 J Fr.
  constructor; cbn [set_app l_threads l_status l_flag l_freed l_app].
  - auto.
  - intros b. destruct (Nat.eqb b a) eqn:E; auto. intros H. apply St1. eapply g_set; eauto.
  - intros b c. destruct (Nat.eqb_spec b a), (Nat.eqb_spec c a); subst; auto.
    + intros H1 H2. destruct (Ins H1) as [_ [H|H]]; [symmetry; apply (g_one w G); auto|].
      pose proof (g_flag w G c H2). congruence.
    + intros H1 H2. destruct (Ins H2) as [_ [H|H]]; [apply (g_one w G); auto|].
      pose proof (g_flag w G b H1). congruence.
    + apply (g_one w G).
  - intros b. destruct (Nat.eqb b a) eqn:E; intros H; [apply Ins in H; tauto|].
    pose proof (g_flag w G b H). destruct Fl; congruence.
  - intros b. destruct (Nat.eqb b a) eqn:E; auto. eapply keeps_joined; eauto. apply (g_join w G).
  - intros H. destruct (Fr H) as [A B]. split.
    + pose proof (g_join w G a) as X. rewrite A in X. apply (keeps_joined _ _ DFree K X).
    + intros b. destruct (Nat.eqb_spec b a); auto. destruct (inside (l_app w b)) eqn:X; auto.
      exfalso. apply n0. apply (g_one w G); auto. rewrite A. auto.
Qed.

Lemma good_threads w l : good w -> l_freed w = false -> Forall sane l -> keeps (l_threads w) l -> good (set_threads w l).
Proof.
  intros G F Sa K. constructor; cbn; auto; try apply G.
  - intros a. eapply keeps_joined; eauto. apply (g_join w G).
  - congruence.
Qed.

Lemma set_app_eta w a p : set_app w a p = set_app (mkLife (l_status w) (l_flag w) (l_freed w) (l_starts w) (l_threads w) (l_app w)) a p.
Proof. reflexivity. Qed.

Lemma good_step started w e w' : good w -> step started w e = Next w' -> good w'.
Proof.
  intros G H. pose proof (g_sane w G) as Sn. destruct e as [a|a|a c|i c|i]; cbn [step] in H.
  - unfold call in H. destruct (l_app w a) eqn:Ea; try discriminate. inversion H; subst; clear H.
    constructor; cbn; try apply G.
    + intros b. destruct (Nat.eqb b a); [discriminate|]. apply (g_set w G).
    + intros b c'. destruct (Nat.eqb b a), (Nat.eqb c' a); try discriminate. apply (g_one w G).
    + intros b. destruct (Nat.eqb b a); [discriminate|]. apply (g_flag w G).
    + intros b. destruct (Nat.eqb b a); [cbn; auto|]. apply (g_join w G).
    + intros F. destruct (g_freed w G F) as [X Y]. split; auto. intros b. destruct (Nat.eqb b a); auto.
  - unfold call in H. destruct (l_app w a) eqn:Ea; try discriminate. inversion H; subst; clear H.
    constructor; cbn; try apply G.
    + intros b. destruct (Nat.eqb b a); [discriminate|]. apply (g_set w G).
    + intros b c'. destruct (Nat.eqb b a), (Nat.eqb c' a); try discriminate. apply (g_one w G).
    + intros b. destruct (Nat.eqb b a); [discriminate|]. apply (g_flag w G).
    + intros b. destruct (Nat.eqb b a); [cbn; auto|]. apply (g_join w G).
    + intros F. destruct (g_freed w G F) as [X Y]. split; auto. intros b. destruct (Nat.eqb b a); auto.
  - unfold app_step in H. destruct (l_app w a) eqn:Ea; try discriminate;
      destruct (l_freed w) eqn:Fr; try discriminate.
    + (* AScope *)
      destruct (Z.eqb_spec (l_status w) np_stopped) as [Es|Es]; inversion H; subst; clear H.
      * constructor; cbn.
        -- apply Forall_app. split; auto. apply Forall_forall. intros t I. apply in_map_iff in I.
           destruct I as (x & <- & _). destruct x; unfold sane; cbn; intros; split; discriminate.
        -- intros b. destruct (Nat.eqb b a); [discriminate|]. apply (g_set w G).
        -- intros b c'. destruct (Nat.eqb b a), (Nat.eqb c' a); try discriminate. apply (g_one w G).
        -- intros b. destruct (Nat.eqb b a); [discriminate|]. apply (g_flag w G).
        -- intros b. destruct (Nat.eqb b a); [cbn; auto|].
           destruct (l_app w b) eqn:Eb; cbn; auto; exfalso;
             apply (g_set w G b); rewrite ?Eb; auto.
        -- congruence.
      * rewrite set_app_eta. apply good_app; auto using keeps_refl; cbn; auto; try discriminate. congruence.
    + inversion H; subst; clear H. rewrite set_app_eta.
      apply good_app; auto using keeps_refl; cbn; destruct (l_status w =? np_shutdown); cbn; auto; try discriminate; congruence.
    + inversion H; subst; clear H. unfold set_status. apply good_app; auto using keeps_refl; cbn; auto; try discriminate; congruence.
    + inversion H; subst; clear H. rewrite set_app_eta.
      apply good_app; auto using keeps_refl; cbn; destruct (goes_on (l_status w) && Nat.eqb c 0); cbn; auto; try discriminate; congruence.
    + destruct (l_flag w) eqn:Fl; inversion H; subst; clear H.
      * rewrite set_app_eta. apply good_app; auto using keeps_refl; cbn; auto; try discriminate; congruence.
      * apply good_app; auto using keeps_refl; cbn; auto; try discriminate; congruence.
    + inversion H; subst; clear H. unfold set_status.
      apply good_app; auto using keeps_refl; cbn; auto; try discriminate; try congruence.
      intros _. split; [apply (g_flag w G a); rewrite Ea; auto|rewrite Ea; auto].
    + inversion H; subst; clear H. unfold set_threads.
      apply good_app; auto using keeps_wake; cbn; auto; try discriminate; try congruence.
      * apply Forall_map. eapply Forall_impl; [|exact Sn]. apply sane_wake.
      * intros _. split; [apply (g_flag w G a); rewrite Ea; auto|rewrite Ea; auto].
      * intros _. apply (g_set w G a). rewrite Ea. auto.
    + assert (X : l_flag w = true /\ (inside (l_app w a) = true \/ l_flag w = false))
        by (split; [apply (g_flag w G a); rewrite Ea; auto|rewrite Ea; auto]).
      assert (Y : l_status w <> np_stopped) by (apply (g_set w G a); rewrite Ea; auto).
      destruct (nth_error (l_threads w) k) as [t|] eqn:N.
      2:{ inversion H; subst; clear H. rewrite set_app_eta.
          apply good_app; auto using keeps_refl; cbn; auto; try discriminate; try congruence. intros; lia. }
      destruct (th_kind t) eqn:Kt.
      * inversion H; subst; clear H. rewrite set_app_eta.
        apply good_app; auto using keeps_refl; cbn; auto; try discriminate; try congruence.
      * destruct (existsb blocked (l_threads w)) eqn:Ex.
        -- destruct (nth_error (l_threads w) c) as [u|] eqn:Nc; try discriminate.
           destruct (blocked u) eqn:Bu; try discriminate. inversion H; subst; clear H.
           unfold set_thread, set_threads.
           apply good_app; auto; cbn; auto; try discriminate; try congruence.
           ++ apply upd_forall; auto. apply sane_wake. eapply nth_forall; eauto.
           ++ eapply keeps_upd; eauto. unfold ended. unfold blocked in Bu. destruct (th_pc u); try discriminate.
        -- inversion H; subst; clear H. rewrite set_app_eta.
           apply good_app; auto using keeps_refl; cbn; auto; try discriminate; try congruence.
      * inversion H; subst; clear H. unfold set_thread, set_threads.
        apply good_app; auto; cbn; auto; try discriminate; try congruence.
        -- apply upd_forall; auto. pose proof (nth_forall _ _ _ _ Sn N) as Z. unfold sane in *. cbn. rewrite Kt in Z. auto.
        -- eapply keeps_upd; eauto.
    + assert (X : l_flag w = true /\ (inside (l_app w a) = true \/ l_flag w = false))
        by (split; [apply (g_flag w G a); rewrite Ea; auto|rewrite Ea; auto]).
      assert (Y : l_status w <> np_stopped) by (apply (g_set w G a); rewrite Ea; auto).
      pose proof (g_join w G a) as J. rewrite Ea in J. cbn in J.
      destruct (nth_error (l_threads w) k) as [t|] eqn:N.
      * destruct (th_pc t) eqn:Pt; try discriminate. inversion H; subst; clear H. rewrite set_app_eta.
        apply good_app; auto using keeps_refl; cbn; auto; try discriminate; try congruence.
        intros i u Hi Ni. destruct (Nat.eq_dec i k) as [->|]; [congruence|]. apply (J i); auto. lia.
      * inversion H; subst; clear H. rewrite set_app_eta.
        apply good_app; auto using keeps_refl; cbn; auto; try discriminate; try congruence.
        apply nth_error_None in N. apply Forall_forall. intros u I. apply In_nth_error in I. destruct I as [i Ni].
        apply (J i); auto. assert (i < length (l_threads w))%nat by (apply nth_error_Some; congruence). lia.
    + inversion H; subst; clear H. apply good_app; auto using keeps_refl; cbn; auto; try discriminate; try congruence.
  - unfold thread_step in H. destruct (nth_error (l_threads w) i) as [t|] eqn:N; try discriminate.
    destruct (th_pc t) eqn:Pt; try discriminate; destruct (l_freed w) eqn:Fr; try discriminate;
      pose proof (nth_forall _ _ _ _ Sn N) as St;
      destruct (th_cancel t && c) eqn:Ec; inversion H; subst; clear H;
      (apply good_threads; auto; [apply upd_forall; auto; unfold sane in *; cbn; intros Kl
        |eapply keeps_upd; eauto; unfold ended; rewrite Pt; discriminate]);
      try (split; discriminate).
    + destruct (goes_on (l_status w)), (l_status w =? np_running); split; discriminate.
    + rewrite Kl. split; discriminate.
    + destruct (St Kl) as [X _]. congruence.
  - unfold timeout_step in H. destruct (nth_error (l_threads w) i) as [t|] eqn:N; try discriminate.
    destruct (th_kind t) eqn:Kt; try discriminate. destruct (th_pc t) eqn:Pt; try discriminate.
    destruct (l_freed w) eqn:Fr; try discriminate. inversion H; subst; clear H.
    apply good_threads; auto; [apply upd_forall; auto; unfold sane; cbn; discriminate|].
    eapply keeps_upd; eauto. unfold ended. congruence.
Qed.

Lemma steps_app started : forall es es' w, steps started w (es ++ es') = match steps started w es with Some w' => steps started w' es' | None => None end.
Proof. induction es; intros; cbn; auto. destruct (step started w a); auto. Qed.
Lemma good_steps started : forall es w w', good w -> steps started w es = Some w' -> good w'.
Proof.
  induction es as [|e es IH]; intros w w' G H; cbn in H; [inversion H; subst; auto|].
  destruct (step started w e) eqn:E; try discriminate. eauto using good_step.
Qed.
Lemma reach_good started w : reachable started w -> good w.
Proof. intros [es H]. eauto using good_steps, good0. Qed.

(** *** np_destroy comes to its end *)
Definition rank (p : wpc) : nat := match p with WRun => 4 | WWait => 3 | WBlocked => 2 | WCheck => 1 | WEnd => 0 end.
Fixpoint ranks (l : list thread) : nat := match l with [] => 0 | t :: l => rank (th_pc t) + ranks l end.
Definition app_rank (n : nat) (p : apc) : nat :=
  match p with DBcast => 2 * n + 5 | DSig k => (n - k) + n + 4 | DJoin k => (n - k) + 2 | DFree => 1 | _ => 0 end.
Definition measure (w : life) (a : nat) : nat := ranks (l_threads w) + app_rank (length (l_threads w)) (l_app w a).

Lemma ranks_le l : (ranks l <= 4 * length l)%nat.
Proof. induction l as [|t l IH]; cbn [ranks length]; [lia|]. destruct (th_pc t); cbn [rank]; lia. Qed.
Lemma ranks_upd l i t u : nth_error l i = Some t -> (ranks (upd l i u) + rank (th_pc t) = ranks l + rank (th_pc u))%nat.
Proof.
  revert i. induction l as [|x l IH]; intros [|i] H; cbn in H; try discriminate.
  - inversion H; subst. cbn. lia.
  - cbn. specialize (IH _ H). lia.
Qed.
Lemma ranks_wake l : (ranks (map wake l) <= ranks l)%nat.
Proof.
  induction l as [|t l IH]; cbn [map ranks]; auto.
  assert (rank (th_pc (wake t)) <= rank (th_pc t))%nat.
  { unfold wake, blocked. destruct (th_pc t) eqn:E; cbn; rewrite ?E; cbn; lia. }
  lia.
Qed.

(** the situation after the status was set to np_shutdown by [a], nobody else being inside a call *)
Record closing (a : nat) (w : life) : Prop := {
  c_good : good w;
  c_others : forall b, b <> a -> l_app w b = AOut;
  c_place : past_set (l_app w a) = true \/ (l_app w a = AOut /\ l_freed w = true);
  c_status : l_status w = np_shutdown;
  c_live : past_set (l_app w a) = true -> l_freed w = false;
  c_guard : Forall (fun t => ~ off_guard t) (l_threads w);
  c_woken : l_app w a <> DBcast -> Forall (fun t => th_kind t = KWorker -> th_pc t <> WBlocked) (l_threads w) }.

Lemma closing_step started a w e w' : closing a w -> no_call e -> step started w e = Next w' ->
  closing a w' /\ (measure w' a < measure w a)%nat /\ length (l_threads w') = length (l_threads w).
Proof.
  intros C Nc H. assert (G' : good w') by (eapply good_step; eauto; apply C).
  destruct C as [G Oth Pl St Lv Gd Wk]. destruct e as [b|b|b c|i c|i]; cbn in Nc; try contradiction; cbn [step] in H.
  - (* application *)
    destruct (Nat.eq_dec b a) as [->|Ne].
    2:{ unfold app_step in H. rewrite (Oth b Ne) in H. discriminate. }
    destruct Pl as [Pl|[Pl Fr]]; [|unfold app_step in H; rewrite Pl in H; discriminate].
    specialize (Lv Pl). unfold app_step in H. rewrite Lv in H.
    assert (Oth' : forall x p, forall b, b <> a -> l_app (set_app x a p) b = l_app x b).
    { intros x p b Hb. rewrite app_eq. destruct (Nat.eqb_spec b a); congruence. }
    assert (Me : forall x p, l_app (set_app x a p) a = p) by (intros; rewrite app_eq, Nat.eqb_refl; auto).
    destruct (l_app w a) eqn:Ea; try discriminate Pl; try discriminate H.
    + (* broadcast *)
      inversion H; subst; clear H. split; [|split; [|cbn; rewrite map_length; auto]].
      * constructor; auto; rewrite ?Me; auto.
        -- intros x Hx. rewrite Oth' by auto. apply Oth; auto.
        -- cbn. apply Forall_map. eapply Forall_impl; [|exact Gd]. intros t. unfold off_guard, wake.
           destruct (blocked t) eqn:B; cbn; auto. intros _ [_ [D|D]]; discriminate.
        -- intros _. cbn. apply Forall_map. apply Forall_forall. intros t _. unfold wake. destruct (blocked t) eqn:B; cbn; [discriminate|].
           intros _ X. unfold blocked in B. rewrite X in B. discriminate.
      * unfold measure. rewrite Me, Ea. cbn [set_app set_threads l_threads app_rank]. rewrite map_length. pose proof (ranks_wake (l_threads w)). lia.
    + (* signals *)
      destruct (nth_error (l_threads w) k) as [t|] eqn:N.
      2:{ inversion H; subst; clear H. split; [|split; auto].
          - constructor; auto; rewrite ?Me; auto.
            + intros x Hx. rewrite Oth' by auto. apply Oth; auto.
            + intros _. cbn. apply Wk. discriminate.
          - unfold measure. rewrite Me, Ea. cbn [set_app l_threads app_rank]. lia. }
      assert (Hk : (k < length (l_threads w))%nat) by (apply nth_error_Some; congruence).
      destruct (th_kind t) eqn:Kt.
      * inversion H; subst; clear H. split; [|split; auto].
        -- constructor; auto; rewrite ?Me; auto; [intros x Hx; rewrite Oth' by auto; apply Oth; auto|].
           intros _. cbn. apply Wk. discriminate.
        -- unfold measure. rewrite Me, Ea. cbn [set_app l_threads app_rank]. lia.
      * destruct (existsb blocked (l_threads w)) eqn:Ex.
        -- destruct (nth_error (l_threads w) c) as [u|] eqn:Ncc; try discriminate.
           destruct (blocked u) eqn:Bu; try discriminate. inversion H; subst; clear H.
           assert (Wu : wake u = mkThread (th_kind u) WCheck (th_cancel u)) by (unfold wake; rewrite Bu; auto).
           split; [|split; [|cbn; rewrite upd_length; auto]].
           ++ constructor; auto; rewrite ?Me; auto.
              ** intros x Hx. rewrite Oth' by auto. apply Oth; auto.
              ** cbn. apply upd_forall; auto. rewrite Wu. unfold off_guard. cbn. intros [_ [D|D]]; discriminate.
              ** intros _. cbn. apply upd_forall; [apply Wk; discriminate|]. rewrite Wu. cbn. intros; discriminate.
           ++ unfold measure. rewrite Me, Ea. cbn [set_app set_thread set_threads l_threads app_rank]. rewrite upd_length.
              pose proof (ranks_upd _ _ _ (wake u) Ncc) as R. rewrite Wu in *. cbn [th_pc rank] in R.
              unfold blocked in Bu. destruct (th_pc u); try discriminate. cbn [rank] in R. lia.
        -- inversion H; subst; clear H. split; [|split; auto].
           ++ constructor; auto; rewrite ?Me; auto; [intros x Hx; rewrite Oth' by auto; apply Oth; auto|].
              intros _. cbn. apply Wk. discriminate.
           ++ unfold measure. rewrite Me, Ea. cbn [set_app l_threads app_rank]. lia.
      * inversion H; subst; clear H. split; [|split; [|cbn; rewrite upd_length; auto]].
        -- constructor; auto; rewrite ?Me; auto.
           ++ intros x Hx. rewrite Oth' by auto. apply Oth; auto.
           ++ cbn. apply upd_forall; auto. unfold off_guard. cbn. intros [D _]; congruence.
           ++ intros _. cbn. apply upd_forall; [apply Wk; discriminate|]. cbn. congruence.
        -- unfold measure. rewrite Me, Ea. cbn [set_app set_thread set_threads l_threads app_rank]. rewrite upd_length.
           pose proof (ranks_upd _ _ _ (mkThread (th_kind t) (th_pc t) true) N) as R. cbn [th_pc] in R. rewrite Kt in R. lia.
    + (* join *)
      destruct (nth_error (l_threads w) k) as [t|] eqn:N.
      * assert (Hk : (k < length (l_threads w))%nat) by (apply nth_error_Some; congruence).
        destruct (th_pc t) eqn:Pt; try discriminate. inversion H; subst; clear H. split; [|split; auto].
        -- constructor; auto; rewrite ?Me; auto; [intros x Hx; rewrite Oth' by auto; apply Oth; auto|].
           intros _. cbn. apply Wk. discriminate.
        -- unfold measure. rewrite Me, Ea. cbn [set_app l_threads app_rank]. lia.
      * inversion H; subst; clear H. split; [|split; auto].
        -- constructor; auto; rewrite ?Me; auto; [intros x Hx; rewrite Oth' by auto; apply Oth; auto|].
           intros _. cbn. apply Wk. discriminate.
        -- unfold measure. rewrite Me, Ea. cbn [set_app l_threads app_rank]. lia.
    + (* free *)
      inversion H; subst; clear H. split; [|split; auto].
      * constructor; auto; rewrite ?Me; auto; [intros x Hx; rewrite Oth' by auto; apply Oth; auto|].
        intros _. cbn. apply Wk. discriminate.
      * unfold measure. rewrite Me, Ea. cbn [set_app l_threads app_rank]. lia.
  - (* a thread of the node *)
    unfold thread_step in H. destruct (nth_error (l_threads w) i) as [t|] eqn:N; try discriminate.
    pose proof (nth_forall _ _ _ _ Gd N) as Gt. cbn in Gt.
    assert (K : forall q cc, (rank q < rank (th_pc t))%nat -> th_pc t <> WEnd ->
       ~ off_guard (mkThread (th_kind t) q cc) -> (th_kind t = KWorker -> q <> WBlocked) -> (th_kind t = KLoop -> q <> WWait /\ q <> WBlocked) ->
       closing a (set_thread w i (mkThread (th_kind t) q cc)) /\
       (measure (set_thread w i (mkThread (th_kind t) q cc)) a < measure w a)%nat /\
       length (l_threads (set_thread w i (mkThread (th_kind t) q cc))) = length (l_threads w)).
    { intros q cc Hq He Hg Hb Hs. split; [|split; [|cbn; apply upd_length]].
      - constructor; auto.
        + apply good_threads; auto.
          * destruct (l_freed w) eqn:F; auto. destruct (g_freed w G F) as [E _].
            pose proof (nth_forall _ _ _ _ E N) as X. unfold ended in X. congruence.
          * apply upd_forall; [apply (g_sane w G)|]. exact Hs.
          * eapply keeps_upd; eauto. unfold ended. congruence.
        + cbn. apply upd_forall; auto.
        + intros X. cbn. apply upd_forall; auto.
      - unfold measure. cbn [set_thread set_threads l_threads l_app]. rewrite upd_length.
        pose proof (ranks_upd _ _ _ (mkThread (th_kind t) q cc) N) as R. cbn [th_pc] in R. lia. }
    assert (Sn : sane t) by (exact (nth_forall _ _ _ _ (g_sane w G) N)).
    destruct (th_pc t) eqn:Pt; try discriminate; destruct (l_freed w) eqn:Fr; try discriminate;
      (destruct (th_cancel t && c) eqn:Ec;
        [inversion H; subst w'; apply K; cbn; [lia|discriminate|intros [_ [D|D]]; discriminate|discriminate|split; discriminate]|]).
    + assert (E : w' = set_thread w i (mkThread (th_kind t) WEnd (th_cancel t))).
      { inversion H as [H1]. rewrite St. reflexivity. }
      subst w'. apply K; cbn; [lia|discriminate|intros [_ [D|D]]; discriminate|discriminate|split; discriminate].
    + destruct (th_kind t) eqn:Kt.
      * inversion H; subst w'. apply K; [destruct c; cbn; lia|discriminate|intros [D _]; discriminate|discriminate|discriminate].
      * exfalso. apply Gt. split; auto.
      * inversion H; subst w'. apply K; [cbn; lia|discriminate|intros [D _]; discriminate|discriminate|split; discriminate].
    + inversion H; subst w'. destruct (th_kind t) eqn:Kt.
      * apply K; [cbn; lia|discriminate|intros [D _]; discriminate|discriminate|discriminate].
      * exfalso. apply Gt. split; auto.
      * destruct (Sn Kt). congruence.
  - unfold timeout_step in H. destruct (nth_error (l_threads w) i) as [t|] eqn:N; try discriminate.
    destruct (th_kind t) eqn:Kt; try discriminate. destruct (th_pc t) eqn:Pt; try discriminate.
    destruct (l_freed w) eqn:Fr; try discriminate. inversion H; subst; clear H.
    split; [|split; [|cbn; apply upd_length]].
    + constructor; auto.
      * cbn. rewrite Fr. exact Pl.
      * cbn. apply upd_forall; auto. intros [D _]. discriminate.
      * intros X. cbn. apply upd_forall; auto. cbn. discriminate.
    + unfold measure. cbn [set_thread set_threads l_threads l_app]. rewrite upd_length.
      pose proof (ranks_upd _ _ _ (mkThread KManager WCheck (th_cancel t)) N) as R. rewrite Pt in R. cbn [th_pc rank] in R. lia.
Qed.

Lemma closing_steps started a : forall es w w', closing a w -> Forall no_call es -> steps started w es = Some w' ->
  closing a w' /\ (length es + measure w' a <= measure w a)%nat.
Proof.
  induction es as [|e es IH]; intros w w' C N H; cbn in H.
  - inversion H; subst. split; auto.
  - inversion N; subst. destruct (step started w e) eqn:E; try discriminate.
    destruct (closing_step _ _ _ _ _ C H2 E) as (C1 & M & _). destruct (IH _ _ C1 H3 H). split; auto. cbn. lia.
Qed.

Lemma closing_rest started a w : closing a w -> at_rest started w -> l_freed w = true /\ l_app w a = AOut.
Proof.
  intros C R. destruct (c_place a w C) as [Pl|[A B]]; [|auto]. exfalso.
  pose proof (c_live a w C Pl) as Lv. pose proof (c_good a w C) as G.
  assert (Go : forall c w', app_step started w a c <> Next w') by (intros c w'; apply (R (App a c) w'); cbn; auto).
  unfold app_step in Go. rewrite Lv in Go. destruct (l_app w a) eqn:Ea; try discriminate.
  - eapply (Go 0%nat). reflexivity.
  - destruct (nth_error (l_threads w) k) as [t|] eqn:N; [|eapply (Go 0%nat); reflexivity].
    destruct (th_kind t); try (eapply (Go 0%nat); reflexivity).
    destruct (existsb blocked (l_threads w)) eqn:Ex; [|eapply (Go 0%nat); reflexivity].
    apply existsb_exists in Ex. destruct Ex as (u & I & Bu). apply In_nth_error in I. destruct I as [c Nc].
    specialize (Go c). rewrite Nc, Bu in Go. eapply Go. reflexivity.
  - destruct (nth_error (l_threads w) k) as [t|] eqn:N; [|eapply (Go 0%nat); reflexivity].
    pose proof (nth_forall _ _ _ _ (g_sane w G) N) as Sn.
    assert (Wk : th_kind t = KWorker -> th_pc t <> WBlocked).
    { apply (nth_forall _ _ _ _ (c_woken a w C ltac:(congruence)) N). }
    assert (Th : forall c w', thread_step w k c <> Next w') by (intros c w'; apply (R (Thr k c) w'); cbn; auto).
    unfold thread_step in Th. rewrite N, Lv in Th. specialize (Th false).
    rewrite Bool.andb_false_r in Th.
    destruct (th_pc t) eqn:Pt; try (eapply Th; reflexivity).
    + destruct (th_kind t) eqn:Kt.
      * assert (To : forall w', timeout_step w k <> Next w') by (intros w'; apply (R (Timeout k) w'); cbn; auto).
        unfold timeout_step in To. rewrite N, Kt, Pt, Lv in To. eapply To. reflexivity.
      * apply Wk; auto.
      * destruct (Sn Kt). congruence.
    + eapply (Go 0%nat). reflexivity.
  - eapply (Go 0%nat). reflexivity.
Qed.

Lemma closing_sound started a w e : closing a w -> no_call e -> step started w e <> Broken.
Proof.
  intros C Nc. pose proof (c_good a w C) as G. destruct e as [b|b|b c|i c|i]; cbn in Nc; try contradiction; cbn [step].
  - unfold app_step. destruct (Nat.eq_dec b a) as [->|Ne]; [|rewrite (c_others a w C b Ne); discriminate].
    destruct (c_place a w C) as [Pl|[A B]]; [|rewrite A; discriminate].
    rewrite (c_live a w C Pl). destruct (l_app w a); try discriminate;
    repeat match goal with |- context [match ?x with _ => _ end] => destruct x; try discriminate end.
  - unfold thread_step. destruct (nth_error (l_threads w) i) as [t|] eqn:N; try discriminate.
    destruct (l_freed w) eqn:Fr.
    + destruct (g_freed w G Fr) as [E _]. pose proof (nth_forall _ _ _ _ E N) as X. rewrite X. discriminate.
    + destruct (th_pc t); try discriminate; destruct (th_cancel t && c); discriminate.
  - unfold timeout_step. destruct (nth_error (l_threads w) i) as [t|] eqn:N; try discriminate.
    destruct (th_kind t); try discriminate. destruct (th_pc t) eqn:Pt; try discriminate.
    destruct (l_freed w) eqn:Fr; try discriminate. destruct (g_freed w G Fr) as [E _].
    pose proof (nth_forall _ _ _ _ E N) as X. unfold ended in X. congruence.
Qed.

(** *** started once *)
Lemma started_stable started w e w' : l_status w <> np_stopped -> step started w e = Next w' ->
  l_starts w' = l_starts w /\ l_status w' <> np_stopped /\ length (l_threads w') = length (l_threads w).
Proof.
  intros S H. destruct e as [a|a|a c|i c|i]; cbn [step] in H.
  - unfold call in H. destruct (l_app w a); inversion H; subst; auto.
  - unfold call in H. destruct (l_app w a); inversion H; subst; auto.
  - unfold app_step in H. destruct (l_app w a); try discriminate; destruct (l_freed w); try discriminate;
      repeat match type of H with context [match ?x with _ => _ end] => destruct x eqn:?; try discriminate end;
      inversion H; subst; cbn; rewrite ?upd_length, ?map_length; auto; try (split; [auto|split; [discriminate|auto]]).
    exfalso. apply S. lia.
  - unfold thread_step in H. destruct (nth_error (l_threads w) i); try discriminate.
    destruct (th_pc t); try discriminate; destruct (l_freed w); try discriminate;
      destruct (th_cancel t && c); inversion H; subst; cbn; rewrite ?upd_length; auto.
  - unfold timeout_step in H. destruct (nth_error (l_threads w) i); try discriminate.
    destruct (th_kind t), (th_pc t); try discriminate. destruct (l_freed w); inversion H; subst; cbn; rewrite ?upd_length; auto.
Qed.
Lemma started_stable_steps started : forall es w w', l_status w <> np_stopped -> steps started w es = Some w' ->
  l_starts w' = l_starts w /\ l_status w' <> np_stopped /\ length (l_threads w') = length (l_threads w).
Proof.
  induction es as [|e es IH]; intros w w' S H; cbn in H; [inversion H; subst; auto|].
  destruct (step started w e) eqn:E; try discriminate.
  destruct (started_stable _ _ _ _ S E) as (A & B & C). destruct (IH _ _ B H) as (D & F & I). repeat split; congruence.
Qed.

Record lone (a : nat) (w : life) : Prop := {
  o_others : forall b, b <> a -> l_app w b = AOut;
  o_fresh : l_status w = np_stopped -> l_starts w = 0%nat \/ (l_starts w = 1%nat /\ (l_app w a = ARead \/ l_app w a = ASet));
  o_once : (l_starts w <= 1)%nat }.
Lemma lone_step started a w e w' : lone a w -> only a e -> step started w e = Next w' -> lone a w'.
Proof.
  intros L O H. destruct (Z.eq_dec (l_status w) np_stopped) as [S|S].
  2:{ destruct (started_stable _ _ _ _ S H) as (A & B & _). constructor; [|congruence|rewrite A; apply L].
      intros b Nb. pose proof (o_others a w L b Nb) as X. destruct e as [x|x|x c|i c|i]; cbn in O; subst; cbn [step] in H.
      - unfold call in H. destruct (l_app w a); inversion H; subst; cbn. destruct (Nat.eqb_spec b a); congruence.
      - unfold call in H. destruct (l_app w a); inversion H; subst; cbn. destruct (Nat.eqb_spec b a); congruence.
      - unfold app_step in H. destruct (l_app w a); try discriminate; destruct (l_freed w); try discriminate;
        repeat match type of H with context [match ?x with _ => _ end] => destruct x eqn:?; try discriminate end;
        inversion H; subst; cbn; destruct (Nat.eqb_spec b a); congruence.
      - unfold thread_step in H. destruct (nth_error (l_threads w) i); try discriminate.
        destruct (th_pc t); try discriminate; destruct (l_freed w); try discriminate;
        destruct (th_cancel t && c); inversion H; subst; cbn; auto.
      - unfold timeout_step in H. destruct (nth_error (l_threads w) i); try discriminate.
        destruct (th_kind t), (th_pc t); try discriminate. destruct (l_freed w); inversion H; subst; cbn; auto. }
  destruct L as [Oth Fr On]. specialize (Fr S).
  assert (Me : forall x p, l_app (set_app x a p) a = p) by (intros; rewrite app_eq, Nat.eqb_refl; auto).
  assert (Ot : forall x p, (forall b, b <> a -> l_app x b = AOut) -> forall b, b <> a -> l_app (set_app x a p) b = AOut).
  { intros x p Hx b Hb. rewrite app_eq. destruct (Nat.eqb_spec b a); auto; congruence. }
  destruct e as [x|x|x c|i c|i]; cbn in O; subst; cbn [step] in H.
  - unfold call in H. destruct (l_app w a) eqn:Ea; inversion H; subst.
    constructor; auto. cbn [set_app l_status l_starts]. intros _. destruct Fr as [Z|[_ [Z|Z]]]; auto; discriminate.
  - unfold call in H. destruct (l_app w a) eqn:Ea; inversion H; subst.
    constructor; auto. cbn [set_app l_status l_starts]. intros _. destruct Fr as [Z|[_ [Z|Z]]]; auto; discriminate.
  - unfold app_step in H. destruct (l_app w a) eqn:Ea; try discriminate; destruct (l_freed w) eqn:Ff; try discriminate.
    + rewrite S in H. cbn in H. inversion H; subst. destruct Fr as [Z|[_ [Z|Z]]]; try discriminate.
      constructor; [apply Ot; auto| |].
      * intros _. right. rewrite Me. cbn. rewrite Z. auto.
      * cbn. lia.
    + rewrite S in H. cbn in H. inversion H; subst. constructor; [apply Ot; auto| |auto].
      intros _. rewrite Me. cbn. destruct Fr as [Z|[Z _]]; auto.
    + inversion H; subst. constructor; [apply Ot; auto|cbn; discriminate|auto].
    + rewrite S in H. cbn in H. destruct Fr as [Z|[_ [Z|Z]]]; try discriminate.
      destruct (Nat.eqb c 0); inversion H; subst; (constructor; [apply Ot; auto|cbn; auto|auto]).
    + destruct Fr as [Z|[_ [Z|Z]]]; try discriminate.
      destruct (l_flag w); inversion H; subst; (constructor; [apply Ot; auto|cbn; auto|auto]).
    + inversion H; subst. constructor; [apply Ot; auto|cbn; discriminate|auto].
    + destruct Fr as [Z|[_ [Z|Z]]]; try discriminate.
      inversion H; subst; (constructor; [apply Ot; auto|cbn; auto|auto]).
    + destruct Fr as [Z|[_ [Z|Z]]]; try discriminate.
      repeat match type of H with context [match ?x with _ => _ end] => destruct x eqn:?; try discriminate end;
      inversion H; subst; (constructor; [apply Ot; auto|cbn; auto|auto]).
    + destruct Fr as [Z|[_ [Z|Z]]]; try discriminate.
      repeat match type of H with context [match ?x with _ => _ end] => destruct x eqn:?; try discriminate end;
      inversion H; subst; (constructor; [apply Ot; auto|cbn; auto|auto]).
    + destruct Fr as [Z|[_ [Z|Z]]]; try discriminate.
      inversion H; subst; (constructor; [apply Ot; auto|cbn; auto|auto]).
  - unfold thread_step in H. destruct (nth_error (l_threads w) i); try discriminate.
    destruct (th_pc t); try discriminate; destruct (l_freed w); try discriminate;
      destruct (th_cancel t && c); inversion H; subst; constructor; cbn; auto.
  - unfold timeout_step in H. destruct (nth_error (l_threads w) i); try discriminate.
    destruct (th_kind t), (th_pc t); try discriminate. destruct (l_freed w); inversion H; subst; constructor; cbn; auto.
Qed.
Lemma lone_steps started a : forall es w w', lone a w -> Forall (only a) es -> steps started w es = Some w' -> lone a w'.
Proof.
  induction es as [|e es IH]; intros w w' L O H; cbn in H; [inversion H; subst; auto|].
  inversion O; subst. destruct (step started w e) eqn:E; try discriminate. eauto using lone_step.
Qed.
Lemma lone0 a : lone a life0.
Proof. constructor; cbn; auto. Qed.

(** ** What np_run does with the queue *)
From Coq Require Import Permutation.
From Verif Require Import Jobqueue_Proofs Life_Spec.
Lemma submit_all_ok js : forall s s' n, jq_inv s -> caps s n -> submit_all s js = Ok s' ->
  jq_inv s' /\ caps s' n /\ exists yes no, Permutation js (yes ++ no) /\ Permutation (jq_jobs s') (yes ++ jq_jobs s).
Proof.
  induction js as [|j js IH]; intros s s' n I C E; cbn [submit_all] in E.
  - injection E as <-. split; [exact I|]. split; [exact C|]. exists [], []. split; reflexivity.
  - destruct (jq_insert s j) as [[b s1]| |] eqn:Ei; cbn [obind] in E; try discriminate E. destruct (jq_insert_ok _ _ _ _ _ I C Ei) as (I1 & C1 & Ht & Hf).
    destruct (IH s1 s' n I1 C1 E) as (I2 & C2 & yes & no & P1 & P2). split; [exact I2|]. split; [exact C2|]. destruct b.
    + exists (j :: yes), no. split; [cbn [app]; apply perm_skip, P1|]. rewrite P2, (Ht eq_refl). cbn [app]. symmetry. apply Permutation_middle.
    + destruct (Hf eq_refl) as [-> _]. exists yes, (j :: no). split; [rewrite P1; apply Permutation_middle|exact P2].
Qed.
Lemma run_once_ok s now t oj s' n : jq_inv s -> caps s n -> run_once s now t = Ok (oj, s') ->
  jq_inv s' /\ caps s' n /\ (forall j, oj = Some j -> j_ts j < now) /\
  exists yes no, Permutation (t_new t) (yes ++ no) /\ Permutation (jq_jobs s ++ yes ++ due_again now oj) (jobs_of [oj] ++ jq_jobs s').
Proof.
  intros I C. unfold run_once. destruct (jq_select s now (t_0 t) (t_1 t)) as [[[r o] s1]| |] eqn:E; cbn [obind]; try discriminate.
  destruct (jq_select_ok _ _ _ _ _ _ _ _ I C E) as (I1 & C1 & Hj). destruct (submit_all s1 (t_new t)) as [s2| |] eqn:Es; cbn [obind]; try discriminate.
  destruct (submit_all_ok _ _ _ _ I1 C1 Es) as (I2 & C2 & yes & no & P1 & P2). destruct o as [j|].
  - destruct Hj as (_ & Pj & Dj & _). unfold jq_finish. destruct (j_periodic j) eqn:Ep.
    + destruct (jq_insert s2 _) as [[b s3]| |] eqn:Ei; cbn [obind]; try discriminate. destruct b; cbn [obind]; [|discriminate]. intros [= <- <-].
      destruct (jq_insert_ok _ _ _ _ _ I2 C2 Ei) as (I3 & C3 & Ht & _). split; [exact I3|]. split; [exact C3|]. split; [intros j' [= <-]; exact Dj|].
      exists yes, no. split; [exact P1|]. cbn [due_again jobs_of flat_map app]. rewrite Ep. rewrite Pj, (Ht eq_refl), P2. cbn [app]. apply perm_skip.
      rewrite app_assoc, (Permutation_app_comm _ [_]). cbn [app]. apply perm_skip. apply Permutation_app_comm.
    + intros [= <- <-]. split; [exact I2|]. split; [exact C2|]. split; [intros j' [= <-]; exact Dj|]. exists yes, no. split; [exact P1|].
      cbn [due_again jobs_of flat_map app]. rewrite Ep, app_nil_r, Pj, P2. cbn [app]. apply perm_skip, Permutation_app_comm.
  - intros [= <- <-]. destruct Hj as (-> & _). split; [exact I2|]. split; [exact C2|]. split; [intros j' [=]|]. exists yes, no. split; [exact P1|].
    cbn [due_again jobs_of flat_map app]. rewrite app_nil_r, P2. apply Permutation_app_comm.
Qed.
Lemma run_for_jobs : forall ts s now fin ran r s' rest n, jq_inv s -> caps s n -> run_for s now fin ran ts = Ok (Some (r, s', rest)) ->
  exists used os yes no, ts = used ++ rest /\ length os = length used /\ r = ran ++ jobs_of os /\
    Forall2 (fun c o => forall j, o = Some j -> j_ts j < c) (firstn (length used) (now :: map t_now used)) os /\
    Permutation (flat_map t_new used) (yes ++ no) /\
    Permutation (jq_jobs s ++ yes ++ all_due_again (now :: map t_now used) os) (jobs_of os ++ jq_jobs s').
Proof.
  induction ts as [|t ts IH]; intros s now fin ran r s' rest n I C H; cbn [run_for] in H; [discriminate|].
  destruct (run_once s now t) as [[oj s1]| |] eqn:E; cbn [obind] in H; try discriminate. destruct (run_once_ok _ _ _ _ _ _ I C E) as (I1 & C1 & D1 & yes & no & P1 & P2).
  assert (R : forall os, (match oj with Some j => ran ++ [j] | None => ran end) ++ jobs_of os = ran ++ jobs_of (oj :: os)).
  { intros os. unfold jobs_of. cbn [flat_map]. destruct oj; [rewrite <- app_assoc; reflexivity|reflexivity]. }
  destruct ((fin >? t_now t) && goes_on (t_status t)).
  - destruct (IH _ _ _ _ _ _ _ _ I1 C1 H) as (used & os & yes' & no' & -> & L & -> & F & Q1 & Q2). exists (t :: used), (oj :: os), (yes ++ yes'), (no ++ no').
    split; [reflexivity|]. split; [cbn; lia|]. split; [apply R|]. split; [cbn [length map firstn]; constructor; [exact D1|exact F]|]. cbn [flat_map]. split.
    + rewrite P1, Q1. rewrite <- !app_assoc. apply Permutation_app_head. rewrite !app_assoc. apply Permutation_app_tail. apply Permutation_app_comm.
    + cbn [map all_due_again]. assert (J : jobs_of (oj :: os) = jobs_of [oj] ++ jobs_of os) by (unfold jobs_of; cbn [flat_map]; rewrite app_nil_r; reflexivity).
      rewrite J, <- (app_assoc (jobs_of [oj])), <- Q2. rewrite (app_assoc (jobs_of [oj])), <- P2. rewrite <- !app_assoc. apply Permutation_app_head, Permutation_app_head.
      rewrite !app_assoc. apply Permutation_app_tail. apply Permutation_app_comm.
  - injection H as <- <- <-. exists [t], [oj], yes, no. split; [reflexivity|]. split; [reflexivity|].
    split; [specialize (R []); cbn [jobs_of flat_map] in R; rewrite app_nil_r in R; exact R|]. split; [cbn [length map firstn]; constructor; [exact D1|constructor]|].
    cbn [flat_map map all_due_again]. rewrite !app_nil_r. split; [exact P1|exact P2].
Qed.

(** ** Work *)
Definition worked (l l' : list thread) : Prop := forall i t', nth_error l' i = Some t' -> th_pc t' = WRun -> exists t, nth_error l i = Some t /\ th_pc t = WRun.
Lemma worked_refl l : worked l l. Proof. intros i t H W. eauto. Qed.
Lemma worked_upd l i u : (th_pc u = WRun -> exists t, nth_error l i = Some t /\ th_pc t = WRun) -> worked l (upd l i u).
Proof.
  intros H j t' E W. destruct (Nat.eq_dec j i) as [->|N].
  - destruct (nth_error l i) as [t|] eqn:E0.
    + rewrite (upd_nth_error_eq l i u) in E; [|apply nth_error_Some; congruence]. injection E as <-. destruct (H W) as (t0 & E1 & W1). exists t0. auto.
    + exfalso. apply nth_error_None in E0. assert (length (upd l i u) = length l) by apply upd_length. assert (j := proj2 (nth_error_None (upd l i u) i)). rewrite j in E by lia. discriminate.
  - rewrite upd_nth_error_neq in E by congruence. eauto.
Qed.
Lemma worked_wake l : worked l (map wake l).
Proof.
  intros i t' E W. rewrite nth_error_map in E. destruct (nth_error l i) as [t|] eqn:E0; cbn in E; [|discriminate]. injection E as <-. exists t. split; [reflexivity|].
  unfold wake, blocked in W. destruct (th_pc t) eqn:P; cbn in W; try rewrite P in W; congruence.
Qed.
Lemma worked_start l started : worked l (l ++ map start_of started).
Proof.
  intros i t' E W. destruct (Nat.lt_ge_cases i (length l)) as [H|H]; [rewrite nth_error_app1 in E by exact H; eauto|].
  rewrite nth_error_app2 in E by exact H. rewrite nth_error_map in E. destruct (nth_error started (i - length l)) as [s|]; cbn in E; [|discriminate]. injection E as <-. discriminate W.
Qed.
Lemma work_step started w e w' i t' : step started w e = Next w' -> nth_error (l_threads w') i = Some t' -> th_pc t' = WRun ->
  l_status w = 2 \/ exists t, nth_error (l_threads w) i = Some t /\ th_pc t = WRun.
Proof.
  intros H E W. destruct (Z.eq_dec (l_status w) 2) as [|N]; [left; assumption|right]. enough (K : worked (l_threads w) (l_threads w')) by (exact (K i t' E W)). clear i t' E W.
  destruct e as [a|a|a c|i c|i]; cbn [step] in H.
  - unfold call in H. destruct (l_app w a); try discriminate. injection H as <-. apply worked_refl.
  - unfold call in H. destruct (l_app w a); try discriminate. injection H as <-. apply worked_refl.
  - unfold app_step in H. destruct (l_app w a) as [| | | | | | | |k|k|]; try discriminate; (destruct (l_freed w); [discriminate|]).
    + destruct (l_status w =? np_stopped); injection H as <-; cbn; [apply worked_start|apply worked_refl].
    + injection H as <-. apply worked_refl.
    + injection H as <-. apply worked_refl.
    + injection H as <-. apply worked_refl.
    + destruct (l_flag w); injection H as <-; apply worked_refl.
    + injection H as <-. apply worked_refl.
    + injection H as <-. apply worked_wake.
    + destruct (nth_error (l_threads w) k) as [t|] eqn:Et; [|injection H as <-; apply worked_refl]. destruct (th_kind t).
      * injection H as <-. apply worked_refl.
      * destruct (existsb blocked (l_threads w)); [|injection H as <-; apply worked_refl]. destruct (nth_error (l_threads w) c) as [u|] eqn:Eu; [|discriminate]. destruct (blocked u) eqn:B; [|discriminate].
        injection H as <-. apply worked_upd. unfold wake. rewrite B. discriminate.
      * injection H as <-. apply worked_upd. cbn. eauto.
    + destruct (nth_error (l_threads w) k) as [t|]; [|injection H as <-; apply worked_refl]. destruct (th_pc t); try discriminate. injection H as <-. apply worked_refl.
    + injection H as <-. apply worked_refl.
  - unfold thread_step in H. destruct (nth_error (l_threads w) i) as [t|] eqn:Et; [|discriminate]. destruct (th_pc t) eqn:P; try discriminate; (destruct (l_freed w); [discriminate|]); (destruct (th_cancel t && c); [injection H as <-; apply worked_upd; discriminate|]); injection H as <-; apply worked_upd; cbn [th_pc].
    + change np_running with 2. rewrite (proj2 (Z.eqb_neq _ _) N). destruct (goes_on (l_status w)); discriminate.
    + intros _. eauto.
    + discriminate.
  - unfold timeout_step in H. destruct (nth_error (l_threads w) i) as [t|] eqn:Et; [|discriminate]. destruct (th_kind t), (th_pc t); try discriminate. destruct (l_freed w); [discriminate|]. injection H as <-. apply worked_upd. discriminate.
Qed.
