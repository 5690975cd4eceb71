(** C30: event chains *)
From Verif Require Import Base Dhkey_Model Eventqueue_Model Eventqueue_Spec Eventqueue_Proofs.

(** the machine after some steps *)
Definition reached {W} (has_key : W -> key -> bool) (handle : W -> key -> event -> prog W) (m : machine W) : Prop :=
  exists w k e m0 n, launch w k e = Some m0 /\ steps has_key handle n m0 = Some m.

Lemma reached_inv {W} has_key handle (m : machine W) : reached has_key handle m -> Inv W m.
Proof. intros (w & k & e & m0 & n & E & En). eapply steps_inv; [|exact En]. exact (launch_inv W has_key handle w k e m0 E). Qed.
Lemma reached_step {W} has_key handle (m m' : machine W) : reached has_key handle m -> step has_key handle m = Some m' -> reached has_key handle m'.
Proof.
  intros (w & k & e & m0 & n & E & En) S. exists w, k, e, m0, (n + 1)%nat. split; [exact E|]. clear E. revert m0 En.
  induction n as [|n IH]; intros m0 En; cbn in *; [injection En as ->; rewrite S; reflexivity|].
  destruct (step has_key handle m0) as [m1|]; [|discriminate]. apply IH. exact En.
Qed.

(** At every moment, the events a chain has run are the first ones of those added to it, in the order of addition, and no
    chain has more than 255 events; when all chains are finished, every event added has been run exactly once and every
    object attached has been released exactly once, in order. *)
Theorem C30_once_in_order : forall W has_key handle (m : machine W), reached has_key handle m -> forall c,
  (exists later, added c (trace m) = ran c (trace m) ++ later) /\ (length (added c (trace m)) <= 255)%nat /\
  (stack m = [] -> ran c (trace m) = added c (trace m) /\ released c (trace m) = objects (added c (trace m))).
Proof.
  intros W has_key handle m R c. pose proof (reached_inv _ _ _ R) as J. split; [|split; [apply (i_bound _ _ J)|]].
  - destruct (in_dec Nat.eq_dec c (map name (stack m))) as [Hi|Hn].
    + apply in_map_iff in Hi as (x & <- & Hx). pose proof (i_fine _ _ J) as F. rewrite Forall_forall in F. specialize (F x Hx).
      rewrite (f_added _ _ _ F). pose proof (f_here _ _ _ F) as H. destruct (here x) as [|p|p|j].
      * destruct H as [-> _]. eexists. symmetry. apply firstn_skipn.
      * destruct H as (_ & -> & _). eexists. symmetry. apply firstn_skipn.
      * destruct H as (_ & -> & _). eexists. symmetry. apply firstn_skipn.
      * destruct H as (_ & -> & _). exists []. symmetry. apply app_nil_r.
    + destruct (Nat.lt_ge_cases c (next m)) as [H|H].
      * destruct (i_done _ _ J c H Hn) as [-> _]. exists []. symmetry. apply app_nil_r.
      * destruct (i_fresh _ _ J c H) as (-> & -> & _). exists []. reflexivity.
  - intros E. destruct (Nat.lt_ge_cases c (next m)) as [H|H].
    + apply (i_done _ _ J c H). rewrite E. auto.
    + destruct (i_fresh _ _ J c H) as (-> & -> & ->). auto.
Qed.

(** The object of an event is kept alive by the chain until the event has run; when all chains are finished, none is kept. *)
Theorem C30_kept_alive : forall W has_key handle (m : machine W), reached has_key handle m ->
  (forall t1 c k e f t2 o, trace m = t1 ++ Ran c k e f :: t2 -> data e = Some o -> 0 < held o t1) /\
  (forall o, 0 <= held o (trace m)) /\ (stack m = [] -> forall o, held o (trace m) = 0).
Proof.
  intros W has_key handle m R. pose proof (reached_inv _ _ _ R) as J. split; [apply (i_kept _ _ J)|]. split.
  - intros o. rewrite (i_held _ _ J o). generalize (stack m). induction l as [|x l IH]; cbn [fold_right]; [lia|]. pose proof (cnt_nonneg o (pending W x)). lia.
  - intros E o. rewrite (i_held _ _ J o), E. reflexivity.
Qed.

Lemma step_trace {W} has_key handle (m m' : machine W) : Inv W m -> step has_key handle m = Some m' ->
  exists new, trace m' = trace m ++ new /\ (new = [] \/ exists a, new = [a] /\ match a with Added c _ _ | Ran c _ _ _ => released c (trace m) = [] | Released _ _ => True end).
Proof.
  intros J E. unfold step in E. destruct (stack m) as [|c below] eqn:Es; [injection E as <-; exists []; rewrite app_nil_r; auto|].
  pose proof (i_fine _ _ J) as IF. rewrite Es in IF. inversion IF as [|? ? Fc Fb]; subst. pose proof (f_here _ _ _ Fc) as Hr.
  destruct (here c) as [|p|p|j] eqn:Eh.
  - destruct (idx c <? size c).
    + destruct (nth_error (events c) (Z.to_nat (idx c))) as [[k e]|]; [|discriminate]. destruct Hr as [_ Rl].
      exists [Ran (name c) k e (has_key (world m) k)]. split; [destruct (has_key (world m) k); injection E as <-; reflexivity|]. right. eexists. split; [reflexivity|exact Rl].
    + injection E as <-. exists []. rewrite app_nil_r. auto.
  - destruct p as [w|k e rest|w k e rest].
    + injection E as <-. exists []. rewrite app_nil_r. auto.
    + destruct (add_event c k e) as [c'|]; [|discriminate]. injection E as <-. destruct Hr as (_ & _ & Rl).
      exists [Added (name c) k e]. split; [reflexivity|]. right. eexists. split; [reflexivity|exact Rl].
    + unfold start in E. destruct (add_event _ k e) as [c'|] eqn:A; [|discriminate]. injection E as <-. cbn [next trace] in *.
      apply (add_event_some W has_key handle) in A; [|cbn; lia]. destruct A as [-> _]. cbn [name].
      exists [Added (next m) k e]. split; [reflexivity|]. right. eexists. split; [reflexivity|]. apply (i_fresh _ _ J). lia.
  - discriminate.
  - destruct (j <? size c).
    + destruct (nth_error (events c) (Z.to_nat j)) as [[k e]|]; [|discriminate]. injection E as <-.
      destruct (data e) as [o|]; [exists [Released (name c) o]|exists []]; split; auto. right. eexists. split; [reflexivity|exact I].
    + injection E as <-. exists []. rewrite app_nil_r. auto.
Qed.

(** A chain releases nothing before its last event has run. *)
Theorem C30_released_last : forall W has_key handle (m : machine W), reached has_key handle m ->
  forall t1 c o t2, trace m = t1 ++ Released c o :: t2 -> ran c t2 = [] /\ added c t2 = [].
Proof.
  intros W has_key handle m (w & k & e & m0 & n & E & En).
  assert (L : forall m, reached has_key handle m -> (forall t1 c o t2, trace m = t1 ++ Released c o :: t2 -> ran c t2 = [] /\ added c t2 = []) ->
              forall m', step has_key handle m = Some m' -> forall t1 c o t2, trace m' = t1 ++ Released c o :: t2 -> ran c t2 = [] /\ added c t2 = []).
  { clear. intros m R H m' S t1 c o t2 T. destruct (step_trace _ _ _ _ (reached_inv _ _ _ R) S) as (new & En & [->|(a & -> & Ha)]).
    - rewrite app_nil_r in En. rewrite En in T. eauto.
    - rewrite En in T. destruct t2 as [|y t2 _] using rev_ind; [auto|].
      replace (t1 ++ Released c o :: t2 ++ [y]) with ((t1 ++ Released c o :: t2) ++ [y]) in T by (rewrite <- app_assoc; reflexivity).
      apply app_inj_tail in T as [T ->]. destruct (H _ _ _ _ T) as [H1 H2]. rewrite ran_app, added_app, H1, H2.
      assert (Rc : released c (trace m) <> []) by (rewrite T, released_app; cbn; rewrite Nat.eqb_refl; destruct (released c t1); discriminate).
      destruct y as [c' k' e'|c' k' e' f|c' o']; cbn; auto; destruct (Nat.eqb_spec c' c); subst; auto; contradiction. }
  assert (R0 : reached has_key handle m0) by (exists w, k, e, m0, 0%nat; auto).
  assert (H0 : forall t1 c o t2, trace m0 = t1 ++ Released c o :: t2 -> ran c t2 = [] /\ added c t2 = []).
  { unfold launch, start in E. destruct (add_event _ k e) as [c'|]; [|discriminate]. injection E as <-. cbn. intros t1 c o t2 T.
    destruct t1 as [|x t1]; [discriminate|]. destruct t1; discriminate. }
  clear E. revert m0 R0 H0 En. induction n as [|n IH]; intros m0 R0 H0 En; cbn in En; [injection En as <-; exact H0|].
  destruct (step has_key handle m0) as [m1|] eqn:S; [|discriminate]. eapply IH; [eapply reached_step; eauto| |exact En]. eapply L; eauto.
Qed.

(** The only way a chain aborts is the 256th event. *)
Theorem C30_capacity : forall W has_key handle (m : machine W), reached has_key handle m ->
  (step has_key handle m = None <-> exists c below k e rest, stack m = c :: below /\ here c = Running (Add k e rest) /\ length (added (name c) (trace m)) = 255%nat).
Proof.
  intros W has_key handle m R. pose proof (reached_inv _ _ _ R) as J. pose proof (i_fine _ _ J) as IF. pose proof (i_shape _ _ J) as Sh. split.
  - intros E. unfold step in E. destruct (stack m) as [|c below] eqn:Es; [discriminate|].
    inversion IF as [|? ? Fc Fb]; subst. destruct Sh as [Nw _]. pose proof (f_size _ _ _ Fc) as L. pose proof (f_idx _ _ _ Fc) as Ri. pose proof (f_here _ _ _ Fc) as Hr. rewrite size_ok in E by exact L.
    unfold waiting in Nw. destruct (here c) as [|p|p|j] eqn:Eh.
    + destruct (Z.ltb_spec (idx c) (Z.of_nat (length (events c)))); [|discriminate].
      destruct (nth_ok (events c) (Z.to_nat (idx c))) as ([k e] & En); [lia|]. rewrite En in E. destruct (has_key (world m) k); discriminate.
    + destruct p as [w|k e rest|w k e rest]; [discriminate| |].
      * exists c, below, k, e, rest. split; [reflexivity|]. split; [exact Eh|]. rewrite (f_added _ _ _ Fc).
        unfold add_event in E. rewrite size_ok in E by exact L. destruct (Z.ltb_spec (Z.of_nat (length (events c))) 255); [discriminate|lia].
      * unfold start, add_event in E. rewrite size_ok in E by (cbn; lia). cbn in E. discriminate.
    + tauto.
    + destruct (Z.ltb_spec j (Z.of_nat (length (events c)))); [|discriminate].
      destruct (nth_ok (events c) (Z.to_nat j)) as ([k e] & En); [lia|]. rewrite En in E. discriminate.
  - intros (c & below & k & e & rest & Es & Eh & L). unfold step. rewrite Es, Eh. rewrite Es in IF. inversion IF as [|? ? Fc Fb]; subst.
    rewrite (f_added _ _ _ Fc) in L. unfold add_event. rewrite size_ok by lia. rewrite L. reflexivity.
Qed.

(** An example: the first event adds two, one of which starts a chain of its own; the key of the last does not exist. *)
Definition ex_key (i : Z) : key := [i; 0; 0; 0; 0; 0; 0; 0].
Definition ex_handle (w : Z) (k : key) (e : event) : prog Z :=
  if etype e =? 1 then Add (ex_key 2) (mkEv 2 (Some 70)) (Add (ex_key 9) (mkEv 3 None) (Return (w + 1)))
  else if etype e =? 2 then Start (w + 10) (ex_key 3) (mkEv 4 (Some 70)) (fun w => Return (w + 100))
  else Return (w * 2).
Definition ex_has (w : Z) (k : key) : bool := negb (hd 0 k =? 9).
Example C30_ex : match launch 5 (ex_key 1) (mkEv 1 (Some 60)) with
  | Some m => match steps ex_has ex_handle 30 m with Some m' => (world m', length (stack m'), trace m') | None => (0, 1%nat, []) end
  | None => (0, 1%nat, [])
  end = (132, 0%nat,
   [Added 0 (ex_key 1) (mkEv 1 (Some 60)); Ran 0 (ex_key 1) (mkEv 1 (Some 60)) true; Added 0 (ex_key 2) (mkEv 2 (Some 70)); Added 0 (ex_key 9) (mkEv 3 None);
    Ran 0 (ex_key 2) (mkEv 2 (Some 70)) true; Added 1 (ex_key 3) (mkEv 4 (Some 70)); Ran 1 (ex_key 3) (mkEv 4 (Some 70)) true; Released 1 70;
    Ran 0 (ex_key 9) (mkEv 3 None) false; Released 0 60; Released 0 70]).
Proof. vm_compute. reflexivity. Qed.

Print Assumptions C30_once_in_order.
Print Assumptions C30_kept_alive.
Print Assumptions C30_released_last.
Print Assumptions C30_capacity.
