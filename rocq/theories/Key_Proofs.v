From Verif Require Import Base Statemachine_Model Key_Model Key_Spec.

(** ** Facts about the table *)
Section Table.
Variable tb : table action condition.
Definition rules_ok_of (chk : Z -> rule action condition -> bool) : bool :=
  forallb (fun o => match o with Some st => forallb (chk (s_id st)) (s_rules st) | None => true end) tb.
Definition states_ok_of (chk : sstate action condition -> bool) : bool :=
  forallb (fun o => match o with Some st => chk st | None => true end) tb.
Definition ids_ok_of : bool :=
  forallb (fun n => match nth_error tb n with
                    | Some (Some st) => s_id st =? Z.of_nat n | _ => true end) (seq 0 (length tb)).
Hypothesis ids : ids_ok_of = true.

Lemma state_at_nth_of id st : state_at tb id = Ok st ->
  0 <= id /\ nth_error tb (Z.to_nat id) = Some (Some st).
Proof.
  unfold state_at. destruct (id <? 0) eqn:E; [discriminate|].
  destruct (nth_error tb (Z.to_nat id)) as [[x|]|]; try discriminate.
  intros H. injection H as ->. split; [lia|reflexivity].
Qed.

Lemma state_id_of id st : state_at tb id = Ok st -> s_id st = id.
Proof.
  intros H. apply state_at_nth_of in H as [P N].
  pose proof ids as K. unfold ids_ok_of in K. rewrite forallb_forall in K.
  specialize (K (Z.to_nat id)). rewrite N in K.
  assert (In (Z.to_nat id) (seq 0 (length tb))).
  { apply in_seq. split; [lia|]. apply nth_error_Some. rewrite N. discriminate. }
  apply K in H. lia.
Qed.

Lemma rule_fact_of chk id st r : rules_ok_of chk = true -> state_at tb id = Ok st -> In r (s_rules st) ->
  chk id r = true.
Proof.
  intros K H I0. pose proof (state_id_of _ _ H) as E. apply state_at_nth_of in H as [_ N].
  unfold rules_ok_of in K. rewrite forallb_forall in K. specialize (K (Some st)).
  cbn beta iota in K. rewrite forallb_forall in K. subst id. apply K; [|exact I0].
  eapply nth_error_In; eauto.
Qed.

Lemma state_fact_of chk id st : states_ok_of chk = true -> state_at tb id = Ok st -> chk st = true.
Proof.
  intros K H. apply state_at_nth_of in H as [_ N]. unfold states_ok_of in K. rewrite forallb_forall in K.
  apply (K (Some st)). eapply nth_error_In; eauto.
Qed.
End Table.

Lemma key_ids : ids_ok_of key_table = true.
Proof. vm_compute. reflexivity. Qed.
Notation rules_ok := (rules_ok_of key_table).
Notation states_ok := (states_ok_of key_table).
Lemma state_id id st : state_at key_table id = Ok st -> s_id st = id.
Proof. exact (state_id_of key_table key_ids id st). Qed.
Lemma rule_fact chk id st r : rules_ok chk = true -> state_at key_table id = Ok st -> In r (s_rules st) ->
  chk id r = true.
Proof. exact (rule_fact_of key_table key_ids chk id st r). Qed.
Lemma state_fact chk id st : states_ok chk = true -> state_at key_table id = Ok st -> chk st = true.
Proof. exact (state_fact_of key_table key_ids chk id st). Qed.
Opaque key_table.

Definition in_use (id : Z) : bool := (id =? IN_USE_NODE) || (id =? IN_USE_ALIAS).

(** ** Traces *)
Definition passed (tr : list obs) (i n : nat) (e : event) (r : rule action condition) : Prop :=
  match r_cond r with None => True | Some c => exists v, In (Tested i n c e v true) tr end.

(** Why action [a] may run. *)
Definition origin (tr : list obs) (i n : nat) (d : Z) (a : action) (e : event) : Prop :=
  (exists id st r, state_at key_table id = Ok st /\ In r (s_rules st) /\ r_action r = Some a /\
     passed tr i n e r /\ (in_use id = true -> accepted tr d))
  \/ (exists id st, state_at key_table id = Ok st /\ (s_enter st = Some a \/ s_exit st = Some a)).

Definition good_obs (o : obs) (tr : list obs) : Prop :=
  match o with
  | Started _ _ _ => True
  | Tested i n c e v b => exists ty d, b = holds c ty d v e
  | Ran i n d a e => origin tr i n d a e
  | Asked i n e _ => exists d, In (Ran i n d A_identity_handle_authn e) tr
  end.
Fixpoint good (tr : list obs) : Prop :=
  match tr with [] => True | o :: tr' => good_obs o tr' /\ good tr' end.

Lemma good_split l1 : forall o l2, good (l1 ++ o :: l2) -> good_obs o l2 /\ good l2.
Proof. induction l1 as [|x l IH]; cbn; intros o l2 G; [exact G|]. apply IH. apply G. Qed.

Lemma good_in o tr : good tr -> In o tr -> exists l1 l2, tr = l1 ++ o :: l2 /\ good_obs o l2 /\ good l2.
Proof.
  intros G H. apply in_split in H as (l1 & l2 & ->). exists l1, l2. split; [reflexivity|].
  eapply good_split; eauto.
Qed.

Lemma tested_holds tr i n c e v : good tr -> In (Tested i n c e v true) tr ->
  exists ty d, holds c ty d v e = true.
Proof.
  intros G H. destruct (good_in _ _ G H) as (l1 & l2 & _ & (ty & d & E) & _). exists ty, d. auto.
Qed.

Lemma accepted_mono tr tr' d : incl tr tr' -> accepted tr d -> accepted tr' d.
Proof. intros I0 (i & n & e & k & H & R). exists i, n, e, k. split; auto. Qed.

Lemma passed_mono tr tr' i n e r : incl tr tr' -> passed tr i n e r -> passed tr' i n e r.
Proof. unfold passed. intros I0. destruct (r_cond r); auto. intros (v & H). exists v. auto. Qed.

(** ** The invariant that holds under every schedule *)
Definition frame_ok (tr : list obs) (rn : nat) (i : nat) (d : Z) (f : frame) : Prop :=
  state_at key_table (f_old f) = Ok (f_state f) /\
  (f_run f < rn)%nat /\
  (in_use (f_old f) = true -> accepted tr d) /\
  (authn_event (f_event f) = true -> accepted tr d) /\
  match f_phase f with
  | Scan rs => incl rs (s_rules (f_state f))
  | Act r | Exit r | Set_ r => In r (s_rules (f_state f)) /\ passed tr i (f_run f) (f_event f) r
  | Enter fo => s_rules (f_state f) <> [] /\ exists id st, state_at key_table id = Ok st /\ fo = s_enter st
  end.

Definition inst_ok (tr : list obs) (rn i : nat) (x : instance) : Prop :=
  (in_use (i_cur x) = true -> accepted tr (i_key x)) /\ Forall (frame_ok tr rn i (i_key x)) (i_frames x).

Definition mail_ok (tr : list obs) (m : list (Z * event)) : Prop :=
  forall d e, In (d, e) m -> authn_event e = true -> accepted tr d.

Definition Inv (s : system) : Prop :=
  good (trace s) /\ mail_ok (trace s) (mail s) /\
  forall i x, nth_error (insts s) i = Some x -> inst_ok (trace s) (runs s) i x.

Lemma frame_ok_mono tr tr' rn rn' i d f : incl tr tr' -> (rn <= rn')%nat ->
  frame_ok tr rn i d f -> frame_ok tr' rn' i d f.
Proof.
  intros I0 L (A & B & C & D & E). split; [exact A|]. split; [lia|].
  split; [intros; eapply accepted_mono; eauto|]. split; [intros; eapply accepted_mono; eauto|].
  destruct (f_phase f); auto; destruct E; split; auto; eapply passed_mono; eauto.
Qed.

Lemma inst_ok_mono tr tr' rn rn' i x : incl tr tr' -> (rn <= rn')%nat -> inst_ok tr rn i x -> inst_ok tr' rn' i x.
Proof.
  intros I0 L (A & B). split; [intros; eapply accepted_mono; eauto|].
  eapply Forall_impl; [|exact B]. intros f. apply frame_ok_mono; auto.
Qed.

Lemma mail_ok_mono tr tr' m : incl tr tr' -> mail_ok tr m -> mail_ok tr' m.
Proof. intros I0 H d e K A. eapply accepted_mono; eauto. Qed.

Lemma nth_upd_same {A} (l : list A) i x y : nth_error l i = Some x -> nth_error (upd l i y) i = Some y.
Proof.
  revert i; induction l as [|a l IH]; intros [|i]; cbn; intros H; try discriminate; auto.
Qed.
Lemma nth_upd_other {A} (l : list A) i j y : i <> j -> nth_error (upd l i y) j = nth_error l j.
Proof.
  revert i j; induction l as [|a l IH]; intros [|i] [|j]; cbn; intros H; auto; try congruence.
Qed.

(** Replacing one key object and extending the trace, the mail and the counter. *)
Lemma inv_change s i x x' o m rn :
  Inv s -> nth_error (insts s) i = Some x ->
  good (o ++ trace s) -> mail_ok (o ++ trace s) m -> (runs s <= rn)%nat ->
  inst_ok (o ++ trace s) rn i x' ->
  Inv (mkSys (upd (insts s) i x') (mail s ++ m) rn (o ++ trace s)).
Proof.
  intros (G & M & K) N G' M' L OK. assert (I0 : incl (trace s) (o ++ trace s)) by (apply incl_appr, incl_refl).
  split; [exact G'|]. split; cbn [trace mail insts runs].
  - intros d e H A. apply in_app_or in H as [H|H]; [|eauto]. eapply accepted_mono; eauto.
  - intros j y H. destruct (Nat.eq_dec i j) as [<-|Ne].
    + rewrite (nth_upd_same _ _ _ _ N) in H. injection H as <-. exact OK.
    + rewrite nth_upd_other in H by auto. eapply inst_ok_mono; eauto.
Qed.

Lemma inv_quiet s i x x' : Inv s -> nth_error (insts s) i = Some x ->
  inst_ok (trace s) (runs s) i x' -> Inv (set_inst s i x').
Proof.
  intros V N OK. unfold set_inst.
  replace (mail s) with (mail s ++ []) by apply app_nil_r.
  apply (inv_change s i x x' [] [] (runs s)); auto; [apply V|intros d e []].
Qed.

Lemma mail_ok_app tr m m' : mail_ok tr m -> mail_ok tr m' -> mail_ok tr (m ++ m').
Proof. intros A B d e H. apply in_app_or in H as [H|H]; eauto. Qed.

(** Running an action keeps the invariant if the action has an origin. *)
Lemma perform_inv s i x f a v next : Inv s -> nth_error (insts s) i = Some x ->
  origin (trace s) i (f_run f) (i_key x) a (f_event f) ->
  (in_use (i_cur x) = true -> accepted (trace s) (i_key x)) ->
  Forall (frame_ok (trace s) (runs s) i (i_key x)) next ->
  Inv (perform s i x f a v next).
Proof.
  intros V N O C F. unfold perform.
  set (o1 := Ran i (f_run f) (i_key x) a (f_event f)).
  set (x' := mkInst (i_key x) (i_cur x) (type_after a v (f_event f) (i_type x)) next).
  assert (G1 : good ([o1] ++ trace s)) by (split; [exact O|apply V]).
  assert (OK1 : forall o, inst_ok (o ++ trace s) (runs s) i x').
  { intros o. assert (I0 : incl (trace s) (o ++ trace s)) by (apply incl_appr, incl_refl).
    split; cbn [i_cur i_key i_frames x']; [intros; eapply accepted_mono; eauto|].
    eapply Forall_impl; [|exact F]. intros g. apply frame_ok_mono; auto. }
  assert (B : Inv (observe (set_inst s i x') o1)).
  { unfold observe, set_inst; cbn [insts mail runs trace].
    replace (mail s) with (mail s ++ []) by apply app_nil_r.
    apply (inv_change s i x x' [o1] [] (runs s)); auto. intros d e []. }
  destruct a; try exact B.
  destruct (e_data (f_event f)) as [| |k| | | | | | |] eqn:D; try exact B.
  destruct (v_authenticated v); [exact B|].
  unfold send, observe, set_inst; cbn [insts mail runs trace].
  apply (inv_change s i x x' [Asked i (f_run f) (f_event f) (v_answer v); o1]
           (authn_mail k (f_event f) v) (runs s)); auto.
  - split; [exists (i_key x); left; reflexivity|exact G1].
  - intros d e H A. unfold authn_mail in H. destruct (v_realm_client v); [destruct H|].
    destruct (v_answer v) eqn:Ans.
    + exists i, (f_run f), (f_event f), k. split; [left; reflexivity|]. split; [exact D|].
      cbn [In] in H. destruct H as [H|[H|[]]]; injection H; intros; subst; auto.
    + cbn [In] in H. destruct H as [H|[]]. injection H as <- <-. vm_compute in A. discriminate.
Qed.

Lemma frame_ok_phase tr rn i d f p : frame_ok tr rn i d f ->
  match p with
  | Scan rs => incl rs (s_rules (f_state f))
  | Act r | Exit r | Set_ r => In r (s_rules (f_state f)) /\ passed tr i (f_run f) (f_event f) r
  | Enter fo => s_rules (f_state f) <> [] /\ exists id st, state_at key_table id = Ok st /\ fo = s_enter st
  end -> frame_ok tr rn i d (with_phase f p).
Proof. intros (A & B & C & D & _) H. repeat split; auto. Qed.

(** A rule that leads into use from elsewhere is taken for authentication events only. *)
Definition chk_entry (id : Z) (r : rule action condition) : bool :=
  negb (in_use (r_target r)) || in_use id ||
  match r_cond r with Some C_is_node_authn | Some C_is_node_identity_authn => true | _ => false end.
Lemma table_entry : rules_ok chk_entry = true.
Proof. vm_compute. reflexivity. Qed.

Lemma go_inv s i x f rest v s' : Inv s -> nth_error (insts s) i = Some x -> i_frames x = f :: rest ->
  go s i x f rest v = Some s' -> Inv s'.
Proof.
  intros V N Fr H. destruct (proj2 (proj2 V) i x N) as [C F]. rewrite Fr in F.
  apply Forall_cons_iff in F as [Ff Frest]. pose proof Ff as (St & Rn & U & Au & Ph).
  unfold go in H. destruct (f_phase f) as [[|r rs]|r|r|r|[a|]] eqn:P.
  - injection H as <-. eapply inv_quiet; eauto. split; auto.
  - assert (Ir : In r (s_rules (f_state f))) by (apply Ph; left; reflexivity).
    assert (Irs : incl rs (s_rules (f_state f))) by (intros z Hz; apply Ph; right; exact Hz).
    destruct (r_active r).
    + destruct (r_cond r) as [c|] eqn:Cd.
      * injection H as <-. set (b := holds c (i_type x) (i_key x) v (f_event f)).
        unfold observe, set_inst; cbn [insts mail runs trace].
        set (o := Tested i (f_run f) c (f_event f) v b).
        replace (mail s) with (mail s ++ []) by apply app_nil_r.
        assert (I0 : incl (trace s) ([o] ++ trace s)) by (apply incl_appr, incl_refl).
        apply (inv_change s i x _ [o] [] (runs s)); auto.
        -- split; [exists (i_type x), (i_key x); reflexivity|apply V].
        -- intros d e [].
        -- split; cbn [i_cur i_key i_frames]; [intros; eapply accepted_mono; eauto|].
           constructor; [|eapply Forall_impl; [|exact Frest]; intros g; apply frame_ok_mono; auto].
           apply frame_ok_phase; [apply (frame_ok_mono (trace s) _ (runs s)); auto|].
           destruct b eqn:Hb; [|exact Irs]. split; [exact Ir|].
           unfold passed. rewrite Cd. exists v. left. reflexivity.
      * injection H as <-. eapply inv_quiet; eauto. split; cbn [i_cur i_key i_frames]; auto.
        constructor; auto. apply frame_ok_phase; auto. split; auto. unfold passed. rewrite Cd. exact I.
    + injection H as <-. eapply inv_quiet; eauto. split; cbn [i_cur i_key i_frames]; auto.
      constructor; auto. apply frame_ok_phase; auto.
  - destruct Ph as [Ir Ps].
    assert (Nx : Forall (frame_ok (trace s) (runs s) i (i_key x))
                   (with_phase f (if crossing f r then Exit r else Set_ r) :: rest)).
    { constructor; auto. apply frame_ok_phase; auto. destruct (crossing f r); auto. }
    destruct (r_action r) as [a|] eqn:A; injection H as <-.
    + apply perform_inv; auto. left. exists (f_old f), (f_state f), r. auto.
    + eapply inv_quiet; eauto. split; auto.
  - destruct Ph as [Ir Ps]. destruct (s_exit (f_state f)) as [a|] eqn:A; [|discriminate].
    injection H as <-. apply perform_inv; auto.
    + right. exists (f_old f), (f_state f). auto.
    + constructor; auto. apply frame_ok_phase; auto.
  - destruct Ph as [Ir Ps]. destruct (i_cur x =? f_old f) eqn:Q.
    + destruct (state_at key_table (r_target r)) as [st| |] eqn:T; try discriminate. injection H as <-.
      eapply inv_quiet; eauto. split; cbn [i_cur i_key i_frames].
      * intros W. pose proof (rule_fact _ _ _ _ table_entry St Ir) as K. unfold chk_entry in K.
        rewrite W in K. cbn [negb orb] in K. destruct (in_use (f_old f)) eqn:Uo; [auto|].
        cbn [orb] in K. unfold passed in Ps. apply Au.
        destruct (r_cond r) as [c|]; [|discriminate]. destruct Ps as (v' & Hv).
        destruct (tested_holds _ _ _ _ _ _ (proj1 V) Hv) as (ty & d & Hh).
        destruct c; try discriminate K; cbn [holds] in Hh; [exact Hh|].
        apply andb_prop in Hh. apply Hh.
      * destruct (crossing f r); auto. constructor; auto. apply frame_ok_phase; auto.
        split; [intros R; rewrite R in Ir; destruct Ir|]. exists (r_target r), st. auto.
    + injection H as <-. eapply inv_quiet; eauto. split; cbn [i_cur i_key i_frames]; auto.
      destruct (crossing f r); auto. constructor; auto. apply frame_ok_phase; auto.
      split; [intros R; rewrite R in Ir; destruct Ir|]. exists (f_old f), (f_state f). auto.
  - injection H as <-. apply perform_inv; auto. right. destruct Ph as (_ & id & st & T & E).
    exists id, st. auto.
  - discriminate.
Qed.

Lemma step_inv m s s' : Inv s -> step m s = Some s' -> Inv s'.
Proof.
  intros V H. destruct m as [d ty|d e|i k|i v]; cbn [step] in H.
  - injection H as <-. split; [apply V|]. split; [apply V|]. cbn [insts trace runs]. intros j y K.
    destruct (Nat.lt_ge_cases j (length (insts s))) as [L|L].
    + rewrite nth_error_app1 in K by auto. apply V; auto.
    + rewrite nth_error_app2 in K by auto. destruct (j - length (insts s))%nat as [|z] eqn:Z0; cbn in K.
      * injection K as <-. split; cbn [i_cur i_frames]; [intros Q; vm_compute in Q; discriminate|constructor].
      * destruct z; discriminate.
  - destruct (mailable e) eqn:M; [|discriminate]. injection H as <-. split; [apply V|]. split; [|apply V].
    cbn [send mail trace]. apply mail_ok_app; [apply V|]. intros d' e' [K|[]] A. injection K as <- <-.
    unfold mailable in M. rewrite A in M. discriminate.
  - destruct (nth_error (insts s) i) as [x|] eqn:N; [|discriminate].
    destruct (nth_error (mail s) k) as [[d e]|] eqn:Mk; [|discriminate].
    destruct (d =? i_key x) eqn:D; [|discriminate].
    destruct (state_at key_table (i_cur x)) as [st| |] eqn:T; try discriminate. injection H as <-.
    set (o := Started i (runs s) e). assert (d = i_key x) by lia. subst d.
    assert (I0 : incl (trace s) ([o] ++ trace s)) by (apply incl_appr, incl_refl).
    replace (mail s) with (mail s ++ []) by apply app_nil_r.
    destruct (proj2 (proj2 V) i x N) as [C F].
    apply (inv_change s i x _ [o] [] (S (runs s))); auto.
    + split; [exact I|apply V].
    + intros d' e' [].
    + split; cbn [i_cur i_key i_frames]; [intros; eapply accepted_mono; eauto|].
      constructor; [|eapply Forall_impl; [|exact F]; intros g; apply frame_ok_mono; auto].
      split; [exact T|]. split; [cbn; lia|]. split; cbn [f_old f_event f_phase f_state].
      * intros; eapply accepted_mono; eauto.
      * split; [|apply incl_refl]. intros A. eapply accepted_mono; eauto.
        apply (proj1 (proj2 V) _ e); auto. eapply nth_error_In; eauto.
  - destruct (nth_error (insts s) i) as [x|] eqn:N; [|discriminate].
    destruct (i_frames x) as [|f rest] eqn:F; [discriminate|]. eapply go_inv; eauto.
Qed.

Lemma inv_empty : Inv empty.
Proof. split; [exact I|]. split; [intros d e []|]. intros [|i] x; discriminate. Qed.

Lemma steps_inv ms : forall s s', Inv s -> steps ms s = Some s' -> Inv s'.
Proof.
  induction ms as [|m ms IH]; cbn; intros s s' V H; [injection H as <-; exact V|].
  destruct (step m s) as [s1|] eqn:E; [|discriminate]. eapply IH; [|exact H]. eapply step_inv; eauto.
Qed.

Lemma reach_inv ms s : steps ms empty = Some s -> Inv s.
Proof. apply steps_inv, inv_empty. Qed.

(** ** What one step of an activation changes *)
Definition phase_action (f : frame) : option action :=
  match f_phase f with
  | Act r => r_action r | Exit r => s_exit (f_state f) | Enter fo => fo | _ => None
  end.

Definition about (i : nat) (x : instance) (f : frame) (z : obs) : Prop :=
  match z with
  | Started _ _ _ => False
  | Tested j n _ e _ _ => j = i /\ n = f_run f
  | Asked j n e _ => j = i /\ n = f_run f
  | Ran j n d a e => j = i /\ n = f_run f /\ d = i_key x /\ e = f_event f /\ phase_action f = Some a
  end.

Definition next_frames (x : instance) (f : frame) (rest fs : list frame) (v : view) : Prop :=
  match f_phase f with
  | Scan [] => fs = rest
  | Scan (r :: rs) => exists p, fs = with_phase f p :: rest /\
      (p = Scan rs \/ p = Act r /\
         match r_cond r with None => True | Some c => holds c (i_type x) (i_key x) v (f_event f) = true end)
  | Act r => exists p, fs = with_phase f p :: rest /\
      (p = Exit r /\ crossing f r = true \/ p = Set_ r /\ crossing f r = false)
  | Exit r => fs = with_phase f (Set_ r) :: rest
  | Set_ r => (crossing f r = false /\ fs = rest) \/
      (crossing f r = true /\ exists st, fs = with_phase f (Enter (s_enter st)) :: rest /\
         if i_cur x =? f_old f then state_at key_table (r_target r) = Ok st else st = f_state f)
  | Enter _ => fs = rest
  end.

Definition next_cur (x : instance) (f : frame) : Z :=
  match f_phase f with Set_ r => if i_cur x =? f_old f then r_target r else i_cur x | _ => i_cur x end.

Definition last_ran (o : list obs) : Prop :=
  forall l1 j n d a e l2, o = l1 ++ Ran j n d a e :: l2 -> l2 = [].
Lemma last_ran_nil : last_ran [].
Proof. intros [|y l1]; discriminate. Qed.
Lemma last_ran_one z : last_ran [z].
Proof. intros [|y [|z' l1]] j n d a e l2; cbn; intros H; try discriminate. injection H as _ H. auto. Qed.

Lemma go_shape s i x f rest v s' : go s i x f rest v = Some s' ->
  exists o m x',
    s' = mkSys (upd (insts s) i x') (mail s ++ m) (runs s) (o ++ trace s) /\
    i_key x' = i_key x /\ i_cur x' = next_cur x f /\
    i_type x' = match phase_action f with Some a => type_after a v (f_event f) (i_type x) | None => i_type x end /\
    next_frames x f rest (i_frames x') v /\
    (forall z, In z o -> about i x f z) /\
    (forall a, phase_action f = Some a -> In (Ran i (f_run f) (i_key x) a (f_event f)) o) /\
    last_ran o.
Proof.
  assert (P : forall a next, phase_action f = Some a ->
            exists o m, perform s i x f a v next =
              mkSys (upd (insts s) i (mkInst (i_key x) (i_cur x) (type_after a v (f_event f) (i_type x)) next))
                    (mail s ++ m) (runs s) (o ++ trace s) /\
              (forall z, In z o -> about i x f z) /\ In (Ran i (f_run f) (i_key x) a (f_event f)) o /\ last_ran o).
  { intros a next Pa. unfold perform.
    set (x' := mkInst (i_key x) (i_cur x) (type_after a v (f_event f) (i_type x)) next).
    set (r0 := Ran i (f_run f) (i_key x) a (f_event f)).
    assert (A1 : exists o m, observe (set_inst s i x') r0 =
              mkSys (upd (insts s) i x') (mail s ++ m) (runs s) (o ++ trace s) /\
              (forall z, In z o -> about i x f z) /\ In r0 o /\ last_ran o).
    { exists [r0], []. unfold observe, set_inst; cbn [insts mail runs trace app]. rewrite app_nil_r.
      split; [reflexivity|]. split; [|split; [left; reflexivity|apply last_ran_one]]. intros z [<-|[]]. cbn. auto. }
    destruct a; try exact A1. destruct (e_data (f_event f)); try exact A1.
    destruct (v_authenticated v); [exact A1|].
    exists [Asked i (f_run f) (f_event f) (v_answer v); r0], (authn_mail t (f_event f) v).
    split; [reflexivity|]. split; [|split; [right; left; reflexivity|]].
    - intros z [<-|[<-|[]]]; cbn; auto.
    - intros [|y [|y' [|z l1]]] j n d a e l2; cbn; intros Q; try discriminate. injection Q. auto. }
  unfold go. unfold phase_action, next_frames, next_cur in *.
  destruct (f_phase f) as [[|r rs]|r|r|r|[a|]] eqn:Ph; intros H.
  - injection H as <-. eexists [], [], _. split; [unfold set_inst; rewrite app_nil_r; reflexivity|].
    cbn. repeat split; auto; try discriminate; [intros z []|apply last_ran_nil].
  - destruct (r_active r).
    + destruct (r_cond r) as [c|] eqn:C; injection H as <-.
      * eexists [_], [], _. split; [unfold observe, set_inst; cbn [insts mail runs trace app]; rewrite app_nil_r; reflexivity|].
        cbn [i_key i_cur i_type i_frames]. split; [reflexivity|]. split; [reflexivity|]. split; [reflexivity|].
        split; [|split; [|split; [discriminate|apply last_ran_one]]].
        -- eexists. split; [reflexivity|].
           destruct (holds c (i_type x) (i_key x) v (f_event f)) eqn:Hh; [right|left]; auto.
        -- intros z [<-|[]]. cbn. auto.
      * eexists [], [], _. split; [unfold set_inst; rewrite app_nil_r; reflexivity|].
        cbn [i_key i_cur i_type i_frames]. split; [reflexivity|]. split; [reflexivity|]. split; [reflexivity|].
        split; [|split; [intros z []|split; [discriminate|apply last_ran_nil]]]. eexists; split; [reflexivity|]. right. auto.
    + injection H as <-. eexists [], [], _. split; [unfold set_inst; rewrite app_nil_r; reflexivity|].
      cbn [i_key i_cur i_type i_frames]. split; [reflexivity|]. split; [reflexivity|]. split; [reflexivity|].
      split; [|split; [intros z []|split; [discriminate|apply last_ran_nil]]]. eexists; split; [reflexivity|]. left. auto.
  - destruct (r_action r) as [a|] eqn:A; injection H as <-.
    + destruct (P a (with_phase f (if crossing f r then Exit r else Set_ r) :: rest) eq_refl) as (o & m & E & Q & R & Lr).
      exists o, m. eexists. split; [exact E|]. cbn [i_key i_cur i_type i_frames].
      split; [reflexivity|]. split; [reflexivity|]. split; [reflexivity|].
      split; [|split; [exact Q|split; [intros a' Ea; injection Ea as <-; exact R|exact Lr]]].
      eexists; split; [reflexivity|]. destruct (crossing f r); auto.
    + eexists [], [], _. split; [unfold set_inst; rewrite app_nil_r; reflexivity|].
      cbn [i_key i_cur i_type i_frames]. split; [reflexivity|]. split; [reflexivity|]. split; [reflexivity|].
      split; [|split; [intros z []|split; [discriminate|apply last_ran_nil]]]. eexists; split; [reflexivity|]. destruct (crossing f r); auto.
  - destruct (s_exit (f_state f)) as [a|] eqn:A; [|discriminate]. injection H as <-.
    destruct (P a (with_phase f (Set_ r) :: rest) eq_refl) as (o & m & E & Q & R & Lr).
    exists o, m. eexists. split; [exact E|]. cbn [i_key i_cur i_type i_frames].
    split; [reflexivity|]. split; [reflexivity|]. split; [reflexivity|].
    split; [|split; [exact Q|split; [intros a' Ea; injection Ea as <-; exact R|exact Lr]]]. reflexivity.
  - destruct (i_cur x =? f_old f) eqn:Q.
    + destruct (state_at key_table (r_target r)) as [st| |] eqn:T; try discriminate. injection H as <-.
      eexists [], [], _. split; [unfold set_inst; rewrite app_nil_r; reflexivity|].
      cbn [i_key i_cur i_type i_frames]. split; [reflexivity|]. split; [reflexivity|]. split; [reflexivity|].
      split; [|split; [intros z []|split; [discriminate|apply last_ran_nil]]]. destruct (crossing f r); [right|left]; split; auto.
      exists st. auto.
    + injection H as <-.
      eexists [], [], _. split; [unfold set_inst; rewrite app_nil_r; reflexivity|].
      cbn [i_key i_cur i_type i_frames]. split; [reflexivity|]. split; [reflexivity|]. split; [reflexivity|].
      split; [|split; [intros z []|split; [discriminate|apply last_ran_nil]]]. destruct (crossing f r); [right|left]; split; auto.
      exists (f_state f). auto.
  - injection H as <-. destruct (P a rest eq_refl) as (o & m & E & Q & R & Lr).
    exists o, m. eexists. split; [exact E|]. cbn [i_key i_cur i_type i_frames].
    split; [reflexivity|]. split; [reflexivity|]. split; [reflexivity|].
    split; [reflexivity|split; [exact Q|split; [intros a' Ea; injection Ea as <-; exact R|exact Lr]]].
  - discriminate.
Qed.

(** ** Removed keys *)

(** Only the state "in destroy" runs the removal, and it has no rules. *)
Definition chk_destroy (id : Z) (r : rule action condition) : bool :=
  negb (id =? IN_DESTROY) && match r_action r with Some A_key_destroy => false | _ => true end.
Lemma table_destroy : rules_ok chk_destroy = true.
Proof. vm_compute. reflexivity. Qed.
Definition chk_destroy_state (st : sstate action condition) : bool :=
  match s_exit st with Some A_key_destroy => false | _ => true end &&
  match s_enter st with Some A_key_destroy => s_id st =? IN_DESTROY | _ => true end &&
  (negb (s_id st =? IN_DESTROY) || match s_rules st with [] => true | _ => false end).
Lemma table_destroy_state : states_ok chk_destroy_state = true.
Proof. vm_compute. reflexivity. Qed.

Definition after_removal (tr : list obs) (i n : nat) : Prop :=
  exists l1 e l2, tr = l1 ++ Started i n e :: l2 /\ destroyed l2 i.

Definition dframe (tr : list obs) (i : nat) (cur : Z) (f : frame) : Prop :=
  (after_removal tr i (f_run f) -> f_old f = IN_DESTROY) /\
  (f_phase f = Enter (Some A_key_destroy) -> cur = IN_DESTROY).

Definition clean (tr : list obs) : Prop :=
  forall l1 l2 i n d a e, tr = l1 ++ Ran i n d a e :: l2 -> ~ after_removal l2 i n.

Definition DInv (s : system) : Prop :=
  Inv s /\ clean (trace s) /\
  (forall i n e, In (Started i n e) (trace s) -> (n < runs s)%nat) /\
  (forall i, destroyed (trace s) i -> (i < length (insts s))%nat) /\
  forall i x, nth_error (insts s) i = Some x ->
    (destroyed (trace s) i -> i_cur x = IN_DESTROY) /\
    Forall (dframe (trace s) i (i_cur x)) (i_frames x).

Lemma upd_length {A} (l : list A) i y : length (upd l i y) = length l.
Proof. revert i; induction l as [|a l IH]; intros [|i]; cbn; auto. Qed.

Lemma destroyed_mono o tr i : destroyed tr i -> destroyed (o ++ tr) i.
Proof. intros (n & d & e & H). exists n, d, e. apply in_or_app. auto. Qed.

Lemma scan_only f tr rn i d : frame_ok tr rn i d f -> f_old f = IN_DESTROY ->
  f_phase f = Scan [].
Proof.
  intros (St & _ & _ & _ & Ph) E.
  assert (R : s_rules (f_state f) = []).
  { pose proof (state_fact _ _ _ table_destroy_state St) as K. unfold chk_destroy_state in K.
    rewrite (state_id _ _ St), E in K. rewrite !andb_true_iff in K. destruct K as [_ K].
    cbn in K. destruct (s_rules (f_state f)); [reflexivity|discriminate]. }
  rewrite R in Ph. destruct (f_phase f) as [[|r rs]|r|r|r|fo]; auto; exfalso.
  - apply (Ph r). left. reflexivity.
  - destruct Ph as [[] _].
  - destruct Ph as [[] _].
  - destruct Ph as [[] _].
  - destruct Ph as [Q _]. apply Q. reflexivity.
Qed.

Lemma after_removal_skip o tr i n : (forall e, ~ In (Started i n e) o) ->
  after_removal (o ++ tr) i n -> after_removal tr i n.
Proof.
  intros No. induction o as [|z o IH]; [auto|]. intros (l1 & e & l2 & E & D).
  assert (No' : forall e, ~ In (Started i n e) o) by (intros e' H; apply (No e'); right; exact H).
  destruct l1 as [|y l1]; cbn in E; injection E as -> E.
  - exfalso. apply (No e). left. reflexivity.
  - apply IH; [exact No'|]. exists l1, e, l2. auto.
Qed.

Lemma destroyed_cons o tr i : destroyed (o ++ tr) i ->
  destroyed tr i \/ exists n d e, In (Ran i n d A_key_destroy e) o.
Proof.
  intros (n & d & e & H). apply in_app_or in H as [H|H]; [right|left]; exists n, d, e; exact H.
Qed.

Lemma clean_app o tr : clean tr ->
  (forall l1 l2 i n d a e, o = l1 ++ Ran i n d a e :: l2 -> ~ after_removal (l2 ++ tr) i n) -> clean (o ++ tr).
Proof.
  intros C H. induction o as [|z o IH]; [exact C|].
  intros l1 l2 i n d a e E. destruct l1 as [|y l1]; cbn in E; injection E as -> E.
  - subst l2. apply (H [] o i n d a e eq_refl).
  - apply (IH (fun l1 l2 i n d a e Q => H (y :: l1) l2 i n d a e (f_equal (cons y) Q)) l1 l2 i n d a e E).
Qed.

(** The removal is run by the entry function of the state "in destroy" only. *)
Lemma removal_phase f tr rn i d : frame_ok tr rn i d f -> phase_action f = Some A_key_destroy ->
  f_phase f = Enter (Some A_key_destroy).
Proof.
  intros (St & _ & _ & _ & Ph) P. unfold phase_action in P. destruct (f_phase f) as [rs|r|r|r|fo]; try discriminate.
  - destruct Ph as [Ir _]. pose proof (rule_fact _ _ _ _ table_destroy St Ir) as K. unfold chk_destroy in K.
    rewrite P in K. rewrite andb_false_r in K. discriminate.
  - pose proof (state_fact _ _ _ table_destroy_state St) as K. unfold chk_destroy_state in K. rewrite P in K.
    cbn in K. discriminate.
  - subst fo. reflexivity.
Qed.

Lemma step_dinv m s s' : DInv s -> step m s = Some s' -> DInv s'.
Proof.
  intros (V & Cl & Rn & Le & K) H. pose proof (step_inv _ _ _ V H) as V'. split; [exact V'|].
  destruct m as [d ty|d e|i k|i v]; cbn [step] in H.
  - injection H as <-. cbn [trace insts runs]. split; [exact Cl|]. split; [exact Rn|].
    split; [intros i D; rewrite app_length; cbn; specialize (Le i D); lia|]. intros j y N.
    destruct (Nat.lt_ge_cases j (length (insts s))) as [L|L].
    + rewrite nth_error_app1 in N by auto. apply K; auto.
    + rewrite nth_error_app2 in N by auto. destruct (j - length (insts s))%nat as [|z]; cbn in N.
      * injection N as <-. split; [intros D; specialize (Le j D); lia|constructor].
      * destruct z; discriminate.
  - destruct (mailable e); [|discriminate]. injection H as <-. unfold send; cbn [trace insts runs]. auto.
  - destruct (nth_error (insts s) i) as [x|] eqn:N; [|discriminate].
    destruct (nth_error (mail s) k) as [[d e]|] eqn:Mk; [|discriminate].
    destruct (d =? i_key x) eqn:D; [|discriminate].
    destruct (state_at key_table (i_cur x)) as [st| |] eqn:T; try discriminate. injection H as <-.
    cbn [trace insts runs].
    assert (Ds : forall j, destroyed (Started i (runs s) e :: trace s) j -> destroyed (trace s) j).
    { intros j Dj. apply (destroyed_cons [_]) in Dj as [Dj|(n & d' & e' & [Q|[]])]; [exact Dj|discriminate]. }
    split; [|split; [|split]].
    + apply (clean_app [_]); [exact Cl|]. intros l1 l2 i' n d' a e' Q.
      destruct l1 as [|y [|z l1]]; discriminate.
    + intros j n e' [Q|Q]; [injection Q; intros; subst; lia|]. specialize (Rn _ _ _ Q). lia.
    + intros j Dj. rewrite upd_length. auto.
    + assert (Keep : forall j c f tr0 rn0 d0, frame_ok tr0 rn0 j d0 f -> (rn0 <= runs s)%nat ->
                dframe (trace s) j c f -> dframe (Started i (runs s) e :: trace s) j c f).
      { intros j c f tr0 rn0 d0 (_ & Rf & _) Lr (A & B). split; [|exact B]. intros Ar. apply A.
        apply (after_removal_skip [Started i (runs s) e]); [|exact Ar].
        intros e' [Q|[]]. injection Q; intros; subst; lia. }
      destruct V as (_ & _ & Vk).
      intros j y Nj. destruct (Nat.eq_dec i j) as [<-|Ne].
      * rewrite (nth_upd_same _ _ _ _ N) in Nj. injection Nj as <-. cbn [i_cur i_frames].
        destruct (K i x N) as [Kc Kf]. split; [intros Dj; apply Kc; auto|].
        destruct (Vk i x N) as [_ Vf].
        constructor.
        -- split; cbn [f_run f_old f_phase]; [|discriminate].
           intros (l1 & e' & l2 & Q & Dl). apply Kc.
           destruct l1 as [|z l1]; cbn in Q; injection Q as Q0 Q; [rewrite Q; exact Dl|].
           exfalso. assert (Hin : In (Started i (runs s) e') (trace s)) by (rewrite Q; apply in_or_app; right; left; reflexivity).
           apply Rn in Hin. lia.
        -- rewrite Forall_forall in *. intros f Hf. eapply Keep; eauto.
      * rewrite nth_upd_other in Nj by auto. destruct (K j y Nj) as [Kc Kf].
        destruct (Vk j y Nj) as [_ Vf]. split; [intros Dj; apply Kc; auto|].
        rewrite Forall_forall in *. intros f Hf. eapply Keep; eauto.
  - destruct (nth_error (insts s) i) as [x|] eqn:N; [|discriminate].
    destruct (i_frames x) as [|f rest] eqn:F; [discriminate|].
    destruct (go_shape _ _ _ _ _ _ _ H) as (o & m & x' & -> & Kx & Cx & Tx & Fx & Ob & Ra & _).
    cbn [trace insts runs].
    destruct (K i x N) as [Kc Kf]. destruct (proj2 (proj2 V) i x N) as [_ Vf].
    rewrite F in Kf, Vf. apply Forall_cons_iff in Kf as [Kf Kr]. apply Forall_cons_iff in Vf as [Vf Vr].
    assert (NoS : forall j n e, ~ In (Started j n e) o) by (intros j n e Q; apply (Ob _ Q)).
    (* the state "in destroy" is never left *)
    assert (Abs : i_cur x = IN_DESTROY -> i_cur x' = IN_DESTROY).
    { intros Q. rewrite Cx. unfold next_cur. destruct (f_phase f) as [rs|r|r|r|fo] eqn:P; auto.
      destruct (i_cur x =? f_old f) eqn:E; auto. exfalso.
      assert (f_old f = IN_DESTROY) by lia. rewrite (scan_only _ _ _ _ _ Vf H0) in P. discriminate. }
    assert (Rem : forall j n d e, In (Ran j n d A_key_destroy e) o -> j = i /\ i_cur x = IN_DESTROY).
    { intros j n d e Q. destruct (Ob _ Q) as (-> & _ & _ & _ & Pa). split; [reflexivity|].
      apply Kf. eapply removal_phase; eauto. }
    split; [|split; [|split]].
    + apply clean_app; [exact Cl|]. intros l1 l2 j n d a e Q Ar.
      assert (Hin : In (Ran j n d a e) o) by (rewrite Q; apply in_or_app; right; left; reflexivity).
      destruct (Ob _ Hin) as (-> & -> & -> & -> & Pa).
      assert (Ar' : after_removal (trace s) i (f_run f)).
      { apply (after_removal_skip l2); [|exact Ar]. intros e' Q'. apply (NoS i (f_run f) e').
        rewrite Q. apply in_or_app. right. right. exact Q'. }
      apply Kf in Ar'. pose proof (scan_only _ _ _ _ _ Vf Ar') as Ps. unfold phase_action in Pa.
      rewrite Ps in Pa. discriminate.
    + intros j n e Q. apply in_app_or in Q as [Q|Q]; [destruct (NoS _ _ _ Q)|eauto].
    + intros j Dj. rewrite upd_length. apply destroyed_cons in Dj as [Dj|(n & d & e & Q)]; [auto|].
      destruct (Rem _ _ _ _ Q) as [-> _]. apply nth_error_Some. rewrite N. discriminate.
    + assert (Kp : forall j c c' g, (c = IN_DESTROY -> c' = IN_DESTROY) ->
                dframe (trace s) j c g -> dframe (o ++ trace s) j c' g).
      { intros j c c' g Cc (A & B). split; [intros Ar; apply A; eapply after_removal_skip; eauto|auto]. }
      intros j y Nj. destruct (Nat.eq_dec i j) as [<-|Ne].
      * rewrite (nth_upd_same _ _ _ _ N) in Nj. injection Nj as <-. split.
        -- intros Dj. apply Abs. apply destroyed_cons in Dj as [Dj|(n & d & e & Q)]; [auto|].
           apply (Rem _ _ _ _ Q).
        -- assert (Rest : Forall (dframe (o ++ trace s) i (i_cur x')) rest).
           { eapply Forall_impl; [|exact Kr]. intros g. apply Kp. exact Abs. }
           assert (One : forall p, (p = Enter (Some A_key_destroy) -> i_cur x' = IN_DESTROY) ->
                     dframe (o ++ trace s) i (i_cur x') (with_phase f p)).
           { intros p Hp. split; cbn [f_run f_old f_phase with_phase]; [|exact Hp].
             intros Ar. apply Kf. eapply after_removal_skip; eauto. }
           unfold next_frames in Fx. destruct (f_phase f) as [[|r rs]|r|r|r|fo] eqn:P.
           ++ rewrite Fx. exact Rest.
           ++ destruct Fx as (p & -> & [->|[-> _]]); constructor; auto; apply One; discriminate.
           ++ destruct Fx as (p & -> & [[-> _]|[-> _]]); constructor; auto; apply One; discriminate.
           ++ rewrite Fx. constructor; auto. apply One; discriminate.
           ++ destruct Fx as [[_ ->]|[_ (st & -> & Q)]]; [exact Rest|]. constructor; auto. apply One. intros E.
              injection E as E. unfold next_cur in Cx. rewrite P in Cx.
              destruct (i_cur x =? f_old f) eqn:Ec.
              ** rewrite Cx. pose proof (state_fact _ _ _ table_destroy_state Q) as Kq.
                 unfold chk_destroy_state in Kq. rewrite E in Kq. rewrite (state_id _ _ Q) in Kq.
                 rewrite !andb_true_iff in Kq. lia.
              ** subst st. destruct Vf as (St & _ & _ & _ & Phh). rewrite P in Phh. destruct Phh as [Ir _].
                 pose proof (state_fact _ _ _ table_destroy_state St) as Kq.
                 unfold chk_destroy_state in Kq. rewrite E in Kq. rewrite !andb_true_iff in Kq.
                 destruct Kq as [[_ Ki] Kr']. rewrite Ki in Kr'. cbn in Kr'.
                 destruct (s_rules (f_state f)); [destruct Ir|discriminate].
           ++ rewrite Fx. exact Rest.
      * rewrite nth_upd_other in Nj by auto. destruct (K j y Nj) as [Jc Jf]. split.
        -- intros Dj. apply Jc. apply destroyed_cons in Dj as [Dj|(n & d & e & Q)]; [auto|].
           destruct (Rem _ _ _ _ Q) as [-> _]. congruence.
        -- eapply Forall_impl; [|exact Jf]. intros g. apply Kp. auto.
Qed.

Lemma dinv_empty : DInv empty.
Proof.
  split; [apply inv_empty|]. split; [intros [|z l1]; discriminate|]. split; [intros i n e []|].
  split; [intros i (n & d & e & [])|]. intros [|i] x; discriminate.
Qed.

Lemma steps_dinv ms : forall s s', DInv s -> steps ms s = Some s' -> DInv s'.
Proof.
  induction ms as [|m ms IH]; cbn; intros s s' V H; [injection H as <-; exact V|].
  destruct (step m s) as [s1|] eqn:E; [|discriminate]. eapply IH; [|exact H]. eapply step_dinv; eauto.
Qed.
