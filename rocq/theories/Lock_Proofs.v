From Coq Require Import List Arith Bool Lia.
From Verif Require Import Lock_Model Lock_Spec.
Import ListNotations.

(** * What a thread holds: locks and callbacks, innermost first *)

Inductive item := L (l : lock) | C (s : nat).

Definition item_eq_dec : forall a b : item, {a = b} + {a <> b}.
Proof. decide equality; [apply lock_eq_dec | apply Nat.eq_dec]. Qed.

Definition cnt (x : item) (k : list item) : nat := count_occ item_eq_dec k x.

Lemma cnt_pos : forall x k, cnt x k > 0 <-> In x k.
Proof. intros; unfold cnt; symmetry; apply count_occ_In. Qed.

(** A program from a point where [k] is held: brackets match, callbacks run under the receiving lock
    of their channel, and [R k l] whenever [l] is taken. *)
Fixpoint ok (R : list item -> lock -> Prop) (k : list item) (p : list act) : Prop :=
  match p with
  | [] => k = []
  | Acq l :: r => R k l /\ ok R (L l :: k) r
  | Rel l :: r => exists k', k = L l :: k' /\ ok R k' r
  | CbIn s :: r => In (L (Rx s)) k /\ ok R (C s :: k) r
  | CbOut s :: r => exists k', k = C s :: k' /\ ok R k' r
  end.

(** A piece of a program that gives back what it takes. *)
Definition okp (R : list item -> lock -> Prop) (k : list item) (p : list act) : Prop :=
  forall r, ok R k r -> ok R k (p ++ r).

Lemma okp_nil : forall R k, okp R k [].
Proof. intros R k r H; exact H. Qed.

Lemma okp_app : forall R k p q, okp R k p -> okp R k q -> okp R k (p ++ q).
Proof. intros R k p q P Q r H. rewrite <- app_assoc. apply P, Q, H. Qed.

Lemma okp_flat : forall R k A (f : A -> list act) xs,
  (forall x, In x xs -> okp R k (f x)) -> okp R k (flat_map f xs).
Proof.
  intros R k A f xs H. induction xs as [|x xs IH]; cbn.
  - apply okp_nil.
  - apply okp_app; [apply H; now left | apply IH; intros; apply H; now right].
Qed.

Lemma okp_locked : forall (R : list item -> lock -> Prop) k l body,
  R k l -> okp R (L l :: k) body -> okp R k (locked l body).
Proof.
  intros R k l body HR HB r H. unfold locked. cbn [app ok]. split; [exact HR|].
  rewrite <- app_assoc. apply HB. cbn. exists k. auto.
Qed.

Lemma okp_cb : forall R k s body,
  In (L (Rx s)) k -> okp R (C s :: k) body -> okp R k (CbIn s :: body ++ [CbOut s]).
Proof.
  intros R k s body HI HB r H. cbn [app ok]. split; [exact HI|].
  rewrite <- app_assoc. apply HB. cbn. exists k. auto.
Qed.

Lemma okp_ok : forall R p, okp R [] p -> ok R [] p.
Proof. intros R p H. rewrite <- (app_nil_r p). apply H. reflexivity. Qed.

(** * The invariant *)

Definition held (t : nat) (m : mutex) : nat :=
  match m with Some (u, n) => if u =? t then n else 0 | None => 0 end.

Fixpoint under (k : list item) : Prop :=
  match k with
  | [] => True
  | L _ :: r => under r
  | C s :: r => In (L (Rx s)) r /\ under r
  end.

Definition inv (R : list item -> lock -> Prop) (st : state) : Prop :=
  exists K : nat -> list item,
    (forall t, ok R (K t) (nth t (todo st) [])) /\
    (forall t, under (K t)) /\
    (forall t l, held t (locks st l) = cnt (L l) (K t)) /\
    (forall l u n, locks st l = Some (u, n) -> n > 0) /\
    (forall t s, inside t s st = cnt (C s) (K t)).

Lemma nth_set_nth : forall A t (x d : A) xs u,
  t < length xs -> nth u (set_nth t x xs) d = if u =? t then x else nth u xs d.
Proof.
  intros A t x d xs. revert t. induction xs as [|y xs IH]; intros [|t] u H; cbn in *; try lia.
  - destruct u; reflexivity.
  - destruct u as [|u]; cbn; [reflexivity|]. apply IH. lia.
Qed.

Lemma nth_cons_len : forall A t (xs : list (list A)) a r, nth t xs [] = a :: r -> t < length xs.
Proof.
  intros A t xs a r H. destruct (Nat.lt_ge_cases t (length xs)) as [l|g]; [exact l|].
  rewrite nth_overflow in H by exact g. discriminate.
Qed.

Lemma inside_from_app : forall tr d t s tr', inside_from d t s (tr ++ tr') =
  inside_from (inside_from d t s tr) t s tr'.
Proof.
  induction tr as [|[u a] tr IH]; intros; cbn; [reflexivity|]. destruct a; apply IH.
Qed.

Lemma cnt_cons : forall x y k, cnt x (y :: k) = (if item_eq_dec y x then 1 else 0) + cnt x k.
Proof. intros. unfold cnt. cbn. destruct (item_eq_dec y x); reflexivity. Qed.

Definition upd (t : nat) (k : list item) (K : nat -> list item) : nat -> list item :=
  fun u => if u =? t then k else K u.

Lemma held_lock : forall t m m' u,
  mutex_lock t m = Some m' -> held u m' = (if u =? t then 1 else 0) + held u m.
Proof.
  intros t m m' u H. unfold mutex_lock in H. destruct m as [[v n]|].
  - destruct (Nat.eqb_spec v t) as [->|]; [|discriminate]. injection H as <-. cbn.
    destruct (Nat.eqb_spec t u); destruct (Nat.eqb_spec u t); subst; try congruence; lia.
  - injection H as <-. cbn.
    destruct (Nat.eqb_spec t u); destruct (Nat.eqb_spec u t); subst; try congruence; lia.
Qed.

Lemma held_unlock : forall t m u,
  held t m > 0 -> held u m = (if u =? t then 1 else 0) + held u (mutex_unlock t m).
Proof.
  intros t m u H. destruct m as [[v n]|]; cbn in H; [|lia].
  destruct (Nat.eqb_spec v t) as [->|]; [|lia].
  destruct n as [|[|n]]; [lia| |]; cbn; rewrite Nat.eqb_refl; cbn;
    destruct (Nat.eqb_spec t u); destruct (Nat.eqb_spec u t); subst; try congruence; lia.
Qed.

Lemma inv_step : forall R t st st', inv R st -> step t st = Some st' -> inv R st'.
Proof.
  intros R t st st' (K & HO & HU & HL & HN & HI) HS. unfold step in HS.
  destruct (nth t (todo st) []) as [|a r] eqn:E; [discriminate|].
  pose proof (nth_cons_len _ _ _ _ _ E) as HT.
  pose proof (HO t) as Ot. rewrite E in Ot.
  assert (OK : forall k', ok R k' r -> forall u, ok R (upd t k' K u) (nth u (set_nth t r (todo st)) [])).
  { intros k' Hk u. rewrite nth_set_nth by exact HT. unfold upd. destruct (u =? t); auto. }
  assert (UN : forall k', under k' -> forall u, under (upd t k' K u)).
  { intros k' Hk u. unfold upd. destruct (u =? t); auto. }
  destruct a as [l|l|s|s]; cbn in Ot.
  - destruct Ot as [_ Ot].
    destruct (mutex_lock t (locks st l)) as [m|] eqn:EM; [|discriminate]. injection HS as <-.
    exists (upd t (L l :: K t) K). split; [|split; [|split; [|split]]]; cbn [todo locks seen].
    + apply OK, Ot.
    + apply UN. cbn. apply HU.
    + intros u x. unfold set_lock, upd. destruct (lock_eq_dec l x) as [<-|NE].
      * rewrite (held_lock _ _ _ u EM), HL. destruct (Nat.eqb_spec u t) as [->|].
        -- rewrite cnt_cons. destruct (item_eq_dec (L l) (L l)); [reflexivity|congruence].
        -- reflexivity.
      * rewrite HL. destruct (Nat.eqb_spec u t) as [->|]; [|reflexivity].
        rewrite cnt_cons. destruct (item_eq_dec (L l) (L x)); [congruence|reflexivity].
    + intros x u n. unfold set_lock. destruct (lock_eq_dec l x) as [<-|NE]; [|apply HN].
      intros ->. unfold mutex_lock in EM. destruct (locks st l) as [[v k]|].
      * destruct (v =? t); [|discriminate]. injection EM as _ <-. lia.
      * injection EM as _ <-. lia.
    + intros u s. unfold inside in *. cbn [seen]. rewrite HI. unfold upd.
      destruct (Nat.eqb_spec u t) as [->|]; [|reflexivity].
      rewrite cnt_cons. destruct (item_eq_dec (L l) (C s)); [congruence|reflexivity].
  - destruct Ot as (k' & Ek & Ot). injection HS as <-.
    assert (HP : held t (locks st l) > 0).
    { rewrite HL, Ek. apply cnt_pos. now left. }
    exists (upd t k' K). split; [|split; [|split; [|split]]]; cbn [todo locks seen].
    + apply OK, Ot.
    + apply UN. specialize (HU t). rewrite Ek in HU. exact HU.
    + intros u x. unfold set_lock. destruct (lock_eq_dec l x) as [<-|NE].
      * pose proof (held_unlock _ _ u HP) as HH. rewrite HL in HH. unfold upd.
        destruct (Nat.eqb_spec u t) as [Q|Q].
        -- rewrite Q in HH |- *. rewrite Ek, cnt_cons in HH. destruct (item_eq_dec (L l) (L l)); [lia|congruence].
        -- lia.
      * rewrite HL. unfold upd. destruct (Nat.eqb_spec u t) as [->|]; [|reflexivity].
        rewrite Ek, cnt_cons. destruct (item_eq_dec (L l) (L x)); [congruence|reflexivity].
    + intros x u n. unfold set_lock. destruct (lock_eq_dec l x) as [<-|NE]; [|apply HN].
      intros EU. destruct (locks st l) as [[v k]|] eqn:EL; [|discriminate].
      pose proof (HN _ _ _ EL) as Hk. unfold mutex_unlock in EU.
      destruct k as [|[|k]]; [lia| |]; destruct (v =? t); try discriminate;
        injection EU as _ <-; lia.
    + intros u s. unfold inside in *. cbn [seen]. rewrite HI. unfold upd.
      destruct (Nat.eqb_spec u t) as [->|]; [|reflexivity].
      rewrite Ek, cnt_cons. destruct (item_eq_dec (L l) (C s)); [congruence|reflexivity].
  - destruct Ot as [Hin Ot]. injection HS as <-.
    exists (upd t (C s :: K t) K). split; [|split; [|split; [|split]]]; cbn [todo locks seen].
    + apply OK, Ot.
    + apply UN. cbn. split; [exact Hin|apply HU].
    + intros u x. rewrite HL. unfold upd. destruct (Nat.eqb_spec u t) as [->|]; [|reflexivity].
      rewrite cnt_cons. destruct (item_eq_dec (C s) (L x)); [congruence|reflexivity].
    + apply HN.
    + intros u x. unfold inside in *. cbn [seen]. rewrite inside_from_app, HI. cbn. unfold upd.
      destruct (Nat.eqb_spec t u) as [<-|NE].
      * rewrite Nat.eqb_refl, cnt_cons. cbn. destruct (Nat.eqb_spec s x) as [Q|Q];
          destruct (item_eq_dec (C s) (C x)); try congruence; reflexivity.
      * destruct (Nat.eqb_spec u t); [congruence|reflexivity].
  - destruct Ot as (k' & Ek & Ot). injection HS as <-.
    exists (upd t k' K). split; [|split; [|split; [|split]]]; cbn [todo locks seen].
    + apply OK, Ot.
    + apply UN. specialize (HU t). rewrite Ek in HU. exact (proj2 HU).
    + intros u x. rewrite HL. unfold upd. destruct (Nat.eqb_spec u t) as [->|]; [|reflexivity].
      rewrite Ek, cnt_cons. destruct (item_eq_dec (C s) (L x)); [congruence|reflexivity].
    + apply HN.
    + intros u x. unfold inside in *. cbn [seen]. rewrite inside_from_app, HI. cbn. unfold upd.
      destruct (Nat.eqb_spec t u) as [<-|NE].
      * rewrite Nat.eqb_refl, Ek, cnt_cons. cbn. destruct (Nat.eqb_spec s x) as [Q|Q];
          destruct (item_eq_dec (C s) (C x)); try congruence; reflexivity.
      * destruct (Nat.eqb_spec u t); [congruence|reflexivity].
Qed.

Lemma inv_run : forall R sched st, inv R st -> inv R (run sched st).
Proof.
  intros R sched. induction sched as [|t r IH]; intros st H; cbn; [exact H|].
  destruct (step t st) eqn:E; apply IH; [eapply inv_step; eauto|exact H].
Qed.

Lemma inv_start : forall R progs, (forall p, In p progs -> ok R [] p) -> inv R (start progs).
Proof.
  intros R progs H. exists (fun _ => []). repeat split; cbn; try discriminate.
  intros t. destruct (Nat.lt_ge_cases t (length progs)) as [l|g].
  - apply H, nth_In, l.
  - rewrite nth_overflow by exact g. reflexivity.
Qed.

(** * Mutual exclusion *)

Lemma under_in : forall k s, under k -> In (C s) k -> In (L (Rx s)) k.
Proof.
  induction k as [|[l|x] k IH]; cbn; intros s H I; [contradiction| |].
  - destruct I as [I|I]; [discriminate|]. right. apply IH; auto.
  - destruct H as [H1 H2]. destruct I as [I|I]; [injection I as <-; now right|].
    right. apply IH; auto.
Qed.

Lemma inv_exclusive : forall R st i j s, inv R st -> inside i s st > 0 -> inside j s st > 0 -> i = j.
Proof.
  intros R st i j s (K & _ & HU & HL & _ & HI) Hi Hj.
  assert (Q : forall t, inside t s st > 0 -> held t (locks st (Rx s)) > 0).
  { intros t Ht. rewrite HI in Ht. rewrite HL. apply cnt_pos. apply under_in; [apply HU|].
    apply cnt_pos, Ht. }
  apply Q in Hi. apply Q in Hj. unfold held in *. destruct (locks st (Rx s)) as [[u n]|]; [|lia].
  destruct (Nat.eqb_spec u i); destruct (Nat.eqb_spec u j); subst; try lia; reflexivity.
Qed.

Lemma inv_finished : forall R st, inv R st -> finished st ->
  (forall l, locks st l = None) /\ forall t s, inside t s st = 0.
Proof.
  intros R st (K & HO & HU & HL & HN & HI) HF.
  assert (E : forall t, K t = []).
  { intros t. specialize (HO t). rewrite (HF t) in HO. exact HO. }
  split.
  - intros l. destruct (locks st l) as [[u n]|] eqn:EL; [|reflexivity].
    pose proof (HN _ _ _ EL). specialize (HL u l). rewrite EL, E in HL. cbn in HL.
    rewrite Nat.eqb_refl in HL. lia.
  - intros t s. rewrite HI, E. reflexivity.
Qed.

(** * No deadlock *)

Section rank.
Variable rank : lock -> nat.

(** What is taken is held already or has a lower rank than everything that is held. *)
Definition lower (k : list item) (l : lock) : Prop :=
  In (L l) k \/ forall m, In (L m) k -> rank l < rank m.

Lemma blocked : forall st, inv lower st ->
  forall n t l r, rank l <= n -> nth t (todo st) [] = Acq l :: r -> exists u, step u st <> None.
Proof.
  intros st (K & HO & HU & HL & HN & HI). induction n as [n IH] using lt_wf_ind.
  intros t l r Hn Ht.
  destruct (step t st) eqn:ES; [exists t; congruence|].
  unfold step in ES. rewrite Ht in ES.
  destruct (mutex_lock t (locks st l)) eqn:EM; [discriminate|].
  unfold mutex_lock in EM. destruct (locks st l) as [[u k]|] eqn:EL; [|discriminate].
  destruct (Nat.eqb_spec u t) as [|NE]; [discriminate|].
  pose proof (HN _ _ _ EL) as Hk.
  assert (Hin : In (L l) (K u)).
  { apply cnt_pos. rewrite <- HL, EL. cbn. rewrite Nat.eqb_refl. exact Hk. }
  destruct (nth u (todo st) []) as [|a r'] eqn:EU.
  - specialize (HO u). rewrite EU in HO. cbn in HO. rewrite HO in Hin. destruct Hin.
  - destruct (step u st) eqn:ES'; [exists u; congruence|].
    unfold step in ES'. rewrite EU in ES'. destruct a as [m|m|s|s]; try discriminate.
    pose proof (HO u) as Ou. rewrite EU in Ou. cbn in Ou. destruct Ou as [[Q|Q] _].
    + exfalso. apply cnt_pos in Q. rewrite <- HL in Q. unfold held in Q.
      destruct (locks st m) as [[v x]|]; [|lia].
      destruct (Nat.eqb_spec v u) as [->|]; [|lia]. cbn in ES'.
      rewrite Nat.eqb_refl in ES'. discriminate.
    + specialize (Q _ Hin). apply (IH (rank m)) with (t := u) (l := m) (r := r'); auto; lia.
Qed.

Lemma not_stuck : forall st, inv lower st -> ~ stuck st.
Proof.
  intros st HI [HF HS]. apply HF. intros t.
  destruct (nth t (todo st) []) as [|a r] eqn:E; [reflexivity|]. exfalso.
  pose proof (HS t) as HT. unfold step in HT. rewrite E in HT. destruct a as [l|l|s|s]; try discriminate.
  destruct (blocked st HI (rank l) t l r (le_n _) E) as [u Hu]. apply Hu, HS.
Qed.
End rank.

Fixpoint total (xs : list (list act)) : nat :=
  match xs with [] => 0 | x :: r => length x + total r end.
Definition remaining (st : state) : nat := total (todo st).

Lemma total_set : forall t xs a (r : list act), nth t xs [] = a :: r ->
  total xs = S (total (set_nth t r xs)).
Proof.
  intros t xs. revert t. induction xs as [|x xs IH]; intros [|t] a r H; cbn in *; try discriminate.
  - subst. reflexivity.
  - erewrite IH by eassumption. lia.
Qed.

Lemma remaining_step : forall t st st', step t st = Some st' -> remaining st = S (remaining st').
Proof.
  intros t st st' H. unfold step in H. destruct (nth t (todo st) []) as [|a r] eqn:E; [discriminate|].
  unfold remaining. rewrite (total_set _ _ _ _ E).
  destruct a; [destruct (mutex_lock _ _); [|discriminate]| | |]; injection H as <-; reflexivity.
Qed.

Lemma total_zero : forall xs, (forall t, nth t xs [] = []) -> total xs = 0.
Proof.
  induction xs as [|x xs IH]; intros H; cbn; [reflexivity|].
  rewrite (H 0 : x = []). cbn. apply IH. intros t. apply (H (S t)).
Qed.

Lemma remaining_finished : forall st, remaining st = 0 <-> finished st.
Proof.
  intros st. unfold remaining, finished. split.
  - intros H t. destruct (nth t (todo st) []) as [|a r] eqn:E; [reflexivity|].
    rewrite (total_set _ _ _ _ E) in H. discriminate.
  - apply total_zero.
Qed.

Lemma run_app : forall a b st, run (a ++ b) st = run b (run a st).
Proof.
  induction a as [|t a IH]; intros; cbn; [reflexivity|]. destruct (step t st); apply IH.
Qed.

(** Steps that are still possible lie with threads that exist, so a step can be looked for. *)
Lemma step_or_stuck : forall st, (forall t, step t st = None) \/ exists t st', step t st = Some st'.
Proof.
  intros st.
  assert (Q : forall n, (forall t, t < n -> step t st = None) \/ exists t st', step t st = Some st').
  { induction n as [|n [IH|IH]]; [left; intros; lia| |now right].
    destruct (step n st) as [s'|] eqn:E; [right; eauto|].
    left. intros t Ht. destruct (Nat.eq_dec t n) as [->|]; [exact E|apply IH; lia]. }
  destruct (Q (length (todo st))) as [H|H]; [|now right]. left. intros t.
  destruct (Nat.lt_ge_cases t (length (todo st))) as [l|g]; [apply H, l|].
  unfold step. rewrite nth_overflow by exact g. reflexivity.
Qed.

Lemma finishes : forall rank st, inv (lower rank) st -> exists sched, finished (run sched st).
Proof.
  intros rank st. remember (remaining st) as n eqn:En. revert st En.
  induction n as [|n IH]; intros st En HI.
  - exists []. apply remaining_finished. symmetry. exact En.
  - destruct (step_or_stuck st) as [H|(t & st' & H)].
    + exfalso. apply (not_stuck rank st HI). split; [|exact H]. intros F.
      apply remaining_finished in F. lia.
    + pose proof (remaining_step _ _ _ H). destruct (IH st') as [sched F]; [lia|eapply inv_step; eauto|].
      exists (t :: sched). cbn. rewrite H. exact F.
Qed.

Lemma stuck_stays : forall st, stuck st -> forall sched, run sched st = st.
Proof.
  intros st [_ H] sched. induction sched as [|t r IH]; cbn; [reflexivity|]. rewrite (H t). exact IH.
Qed.

(** * Programs *)

Section prog.
Variable R : list item -> lock -> Prop.

Lemma okp_register : forall k s m,
  (inbound m = true -> R k (Rx s)) -> R k (Tx s) -> okp R k (register s m).
Proof.
  intros k s [i o] HR HT. unfold register, handle_event. cbn.
  apply okp_app.
  - destruct i; [|apply okp_nil]. apply okp_locked; [apply HR; reflexivity|apply okp_nil].
  - destruct o; [|apply okp_nil]. apply okp_locked; [exact HT|apply okp_nil].
Qed.

Lemma okp_call : forall k c x,
  (forall s, touches c x s -> R k (Rx s)) -> (forall s, R k (Tx s)) -> okp R k (do_call c x).
Proof.
  intros k c [s|s|s] HR HT; cbn [do_call].
  - apply okp_register; [|apply HT]. intros Hm. apply HR. cbn. split; [reflexivity|].
    unfold get_or_create in Hm. destruct (tx_conf c s) as [m|]; [eauto|discriminate].
  - apply okp_register; [|apply HT]. intros Hm. apply HR. cbn. split; [reflexivity|].
    unfold get_or_create in Hm. destruct (rx_conf c s) as [m|]; [exact Hm|exact I].
  - destruct (tx_conf c s); [|apply okp_nil]. apply okp_locked; [apply HT|apply okp_nil].
Qed.

Lemma okp_job : forall c j,
  (forall l, R [] l) ->
  (forall s cbs cb x s', j = Deliver s cbs -> In cb cbs -> In x cb -> touches c x s' ->
     R [C s; L (Rx s)] (Rx s')) ->
  (forall s s', R [C s; L (Rx s)] (Tx s')) ->
  okp R [] (do_job c j).
Proof.
  intros c j H0 HR HT. destruct j as [s cbs|s|xs]; cbn [do_job].
  - apply okp_locked; [apply H0|]. apply okp_flat. intros cb Hcb. unfold callback.
    apply okp_cb; [now left|]. apply okp_flat. intros x Hx.
    apply okp_call; [|intros; apply HT]. intros s' Ht. eapply HR; eauto.
  - apply okp_locked; [apply H0|apply okp_nil].
  - apply okp_flat. intros x _. apply okp_call; intros; apply H0.
Qed.
End prog.

Lemma inv_threads : forall R c js,
  (forall p j, In p js -> In j p -> okp R [] (do_job c j)) -> inv R (threads c js).
Proof.
  intros R c js H. apply inv_start. intros p Hp. apply in_map_iff in Hp. destruct Hp as (q & <- & Hq).
  apply okp_ok, okp_flat. intros j Hj. eapply H; eauto.
Qed.

Lemma inv_any : forall c js, inv (fun _ _ => True) (threads c js).
Proof.
  intros c js. apply inv_threads. intros p j _ _. apply okp_job; auto.
Qed.

Definition levels (level : nat -> nat) (l : lock) : nat :=
  match l with Rx s => S (level s) | _ => 0 end.

Lemma inv_stratified : forall c level js,
  (forall p j, In p js -> In j p -> stratified c level j) ->
  inv (lower (levels level)) (threads c js).
Proof.
  intros c level js H. apply inv_threads. intros p j Hp Hj. specialize (H p j Hp Hj).
  apply okp_job.
  - intros l. right. intros m [].
  - intros s cbs cb x s' -> Hcb Hx Ht. cbn in H. destruct (H cb x s' Hcb Hx Ht) as [->|LT].
    + left. cbn. auto.
    + right. intros m [Q|[Q|[]]]; [discriminate|]. injection Q as <-. cbn. lia.
  - intros s s'. right. intros m [Q|[Q|[]]]; [discriminate|]. injection Q as <-. cbn. lia.
Qed.

Definition netrank (l : lock) : nat :=
  match l with LoopIn => 2 | _ => 1 end.

Lemma inv_net : forall js, (forall p j, In p js -> In j p -> no_own_network j) ->
  inv (lower netrank) (netthreads js).
Proof.
  intros js H. apply inv_start. intros p Hp. apply in_map_iff in Hp. destruct Hp as (q & <- & Hq).
  apply okp_ok, okp_flat. intros j Hj. specialize (H q j Hq Hj).
  assert (E : forall l, lower netrank [] l) by (intros l; right; intros m []).
  destruct j as [is|a own|a own|a]; cbn [do_netjob].
  - apply okp_locked; [apply E|]. apply okp_flat. intros i _. destruct i as [a| |n]; cbn [read].
    + apply okp_locked; [|apply okp_nil]. right. intros m [Q|[]]. injection Q as <-. cbn. lia.
    + apply okp_nil.
    + apply okp_locked.
      * right. intros m [Q|[]]. injection Q as <-. cbn. lia.
      * apply okp_locked; [|apply okp_nil]. left. cbn. auto.
  - apply okp_locked; [apply E|]. destruct own; [destruct H|apply okp_nil].
  - apply okp_locked; [apply E|]. destruct own; [destruct H|apply okp_nil].
  - apply okp_locked; [apply E|apply okp_nil].
Qed.

(** * One thread *)

(** Where only one thread ever does anything, nothing can be held by another. *)
Lemma okp_true : forall j, okp (fun _ _ => True) [] (do_netjob j).
Proof.
  assert (N : forall k n, okp (fun _ _ => True) k (network_stop n)).
  { intros k n. apply okp_locked; [exact I|]. apply okp_locked; [exact I|apply okp_nil]. }
  intros [is|a own|a own|a]; cbn [do_netjob]; apply okp_locked; try exact I.
  - apply okp_flat. intros i _. destruct i as [a| |n]; cbn [read].
    + apply okp_locked; [exact I|apply okp_nil].
    + apply okp_nil.
    + apply N.
  - destruct own; [|apply okp_nil]. apply okp_app; apply N.
  - destruct own; [apply N|apply okp_nil].
  - apply okp_nil.
Qed.

Lemma one_len : forall sched p, length (todo (run sched (start [p]))) = 1.
Proof.
  assert (L1 : forall A t (x : A) xs, length (set_nth t x xs) = length xs).
  { intros A t x xs. revert t. induction xs as [|y xs IH]; intros [|t]; cbn; auto. }
  assert (Q : forall sched st, length (todo st) = 1 -> length (todo (run sched st)) = 1).
  { induction sched as [|t r IH]; intros st H; cbn; [exact H|].
    destruct (step t st) as [st'|] eqn:E; apply IH; [|exact H].
    unfold step in E. destruct (nth t (todo st) []) as [|a q]; [discriminate|].
    destruct a; [destruct (mutex_lock _ _); [|discriminate]| | |]; injection E as <-; cbn;
      rewrite L1; exact H. }
  intros. apply Q. reflexivity.
Qed.

Lemma one_can : forall st, inv (fun _ _ => True) st -> length (todo st) = 1 -> ~ stuck st.
Proof.
  intros st (K & HO & HU & HL & HN & HI) H1 [HF HS]. apply HF. intros t.
  destruct (nth t (todo st) []) as [|a r] eqn:E; [reflexivity|]. exfalso.
  pose proof (nth_cons_len _ _ _ _ _ E) as Ht.
  pose proof (HS t) as HT. unfold step in HT. rewrite E in HT. destruct a as [l|l|s|s]; try discriminate.
  destruct (mutex_lock t (locks st l)) eqn:EM; [discriminate|].
  unfold mutex_lock in EM. destruct (locks st l) as [[u k]|] eqn:EL; [|discriminate].
  destruct (Nat.eqb_spec u t) as [|NE]; [discriminate|].
  pose proof (HN _ _ _ EL) as Hk. specialize (HL u l). rewrite EL in HL. cbn in HL.
  rewrite Nat.eqb_refl in HL.
  specialize (HO u). rewrite nth_overflow in HO by lia. cbn in HO. rewrite HO in HL. cbn in HL. lia.
Qed.

Lemma one_thread : forall jobs sched,
  ~ stuck (run sched (netthreads [jobs])) /\
  exists more, finished (run (sched ++ more) (netthreads [jobs])).
Proof.
  intros jobs sched.
  assert (HI : inv (fun _ _ => True) (netthreads [jobs])).
  { apply inv_start. intros p [<-|[]]. apply okp_ok, okp_flat. intros j _. apply okp_true. }
  unfold netthreads in *. cbn [map] in *.
  set (p := flat_map do_netjob jobs) in *.
  split.
  - apply one_can; [apply inv_run, HI|apply one_len].
  - assert (Q : forall n st, remaining st = n -> length (todo st) = 1 ->
        inv (fun _ _ => True) st -> (forall s, length (todo (run s st)) = 1) ->
        exists more, finished (run more st)).
    { induction n as [|n IH]; intros st En H1 Hi HA.
      - exists []. apply remaining_finished, En.
      - destruct (step_or_stuck st) as [H|(t & st' & H)].
        + exfalso. apply (one_can st Hi H1). split; [|exact H]. intros F.
          apply remaining_finished in F. lia.
        + pose proof (remaining_step _ _ _ H).
          destruct (IH st') as [more F]; [lia| |eapply inv_step; eauto| |].
          * specialize (HA [t]). cbn in HA. rewrite H in HA. exact HA.
          * intros s. specialize (HA (t :: s)). cbn in HA. rewrite H in HA. exact HA.
          * exists (t :: more). cbn. rewrite H. exact F. }
    destruct (Q _ (run sched (start [p])) eq_refl (one_len _ _) (inv_run _ _ _ HI)) as [more F].
    + intros s. rewrite <- run_app. apply one_len.
    + exists more. rewrite run_app. exact F.
Qed.
