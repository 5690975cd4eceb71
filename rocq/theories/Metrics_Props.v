(** Metrics of a node: values, rates, labels and the exported text. *)
From Coq Require Import String.
From Verif Require Import Base Uuid_Model Lock_Model Metrics_Model Metrics_Spec Metrics_Proofs.
Open Scope list_scope.
Open Scope Z_scope.

(** ** C99: values of metrics *)
(** After any calls a metric reads as the last value set plus everything added since, as long as this is a whole number up to 2^24. *)
Theorem C99_counter_partial : forall r i n cs now,
  plain r i -> has_clock r = true -> value_of r i = Some (whole n) -> moderate i (whole n) cs ->
  exists r', metric_get i now (do_calls cs r) = Ok (expected i (whole n) cs, r').
Proof.
  intros r i n cs now P C V M. destruct (counter_run cs r i n P V M) as [V1 P1]. apply get_value; auto. rewrite clock_calls. auto.
Qed.
(** A new metric starts with 0 and is plain. *)
Theorem C99_new : forall r name, (forall b, ~ rate_of r b (List.length (metrics r))) ->
  plain (register_metric name r) (List.length (metrics r)) /\ value_of (register_metric name r) (List.length (metrics r)) = Some (whole 0).
Proof.
  intros r name N. split; [split|].
  - cbn. rewrite app_length. cbn. lia.
  - intros b R. apply (N b). eapply rate_register; eauto.
  - unfold value_of. cbn. rewrite nth_error_app2, Nat.sub_diag by lia. reflexivity.
Qed.
(** A metric to which only non-negative amounts are added never goes down, whatever the amounts. *)
Theorem C99_never_down : forall r i v cs,
  plain r i -> is_float v -> value_of r i = Some v -> Forall (only_adds i) cs ->
  exists w, value_of (do_calls cs r) i = Some w /\ v <= w.
Proof. intros r i v cs P F V A. destruct (adds_run cs r i v P F V A) as [w [W1 [W2 _]]]. eauto. Qed.
(** Calls for other metrics do not change a metric. *)
Theorem C99_others : forall r i v cs, plain r i -> value_of r i = Some v ->
  Forall (fun c => match c with Inc j _ _ | Set_ j _ _ => j <> i | _ => True end) cs -> value_of (do_calls cs r) i = Some v.
Proof.
  intros r i v cs P V A. revert r P V. induction A as [|c cs C A IH]; intros r P V; auto. cbn [do_calls fold_left].
  apply IH. apply plain_do; auto. rewrite value_untouched; auto. apply P.
  destruct P as [_ N]. destruct c; cbn [touches]; auto; intros [T | T]; [auto | exact (N _ T) | auto | exact (N _ T)].
Qed.
(** A counter of messages stops for ever at 2^24: further messages are not counted. *)
Theorem C99_stops_refuted : forall r i times, plain r i -> value_of r i = Some (whole 16777216) ->
  value_of (do_calls (map (Inc i (whole 1)) times) r) i = Some (whole 16777216).
Proof.
  intros r i times. revert r. induction times as [|t ts IH]; intros r P V; auto. cbn [map do_calls fold_left].
  apply IH. apply plain_do; auto. rewrite (value_inc _ _ _ _ (whole 16777216)), stuck; auto. apply P.
Qed.
(** In a context without a clock reading a metric calls a null pointer. *)
Theorem C99_no_clock_refuted : forall cs i now, metric_get i now (do_calls cs (create_context false)) = UB.
Proof. intros cs i now. unfold metric_get. rewrite clock_calls. reflexivity. Qed.

Example C99_ex :
  let r := register_metric (text "in") (register_metric (text "out") (create_context true)) in
  let cs := [Inc 0 (whole 7) 5; Inc 1 (whole 3) 5; RegisterRate 0 1; Set_ 0 (whole 100) 6; Inc 0 (whole 1) 9000; Get 0 10000] in
  plain r 0 /\ value_of r 0 = Some (whole 0) /\ moderate 0 (whole 0) cs /\ expected 0 (whole 0) cs = whole 101 /\ value_of (do_calls cs r) 2 <> None.
Proof.
  intros r cs. split; [|split; [|split; [|split]]].
  - split. vm_compute. lia. intros b [m [s [M [I E]]]]. destruct b as [|[|b]]; cbn in M; try (destruct b; discriminate);
      injection M as <-; destruct I.
  - reflexivity.
  - intros p q E. subst cs.
    destruct p as [|c0 p]; [exists 0; split; [lia | vm_compute; reflexivity]|]. injection E as <- E.
    destruct p as [|c1 p]; [exists 7; split; [lia | vm_compute; reflexivity]|]. injection E as <- E.
    destruct p as [|c2 p]; [exists 7; split; [lia | vm_compute; reflexivity]|]. injection E as <- E.
    destruct p as [|c3 p]; [exists 7; split; [lia | vm_compute; reflexivity]|]. injection E as <- E.
    destruct p as [|c4 p]; [exists 100; split; [lia | vm_compute; reflexivity]|]. injection E as <- E.
    destruct p as [|c5 p]; [exists 101; split; [lia | vm_compute; reflexivity]|]. injection E as <- E.
    destruct p as [|c6 p]; [exists 101; split; [lia | vm_compute; reflexivity]|]. discriminate.
  - reflexivity.
  - vm_compute. discriminate.
Qed.

(** ** C100: rates *)
(** Read [k] seconds after the last measurement the metric per second is the float nearest to the difference divided by [k]: within one
    part in 2^24, and exact when the quotient is a whole number. *)
Theorem C100_rate_partial : forall r b m s v0 v k,
  has_clock r = true -> nth_error (metrics r) b = Some m -> m_rates m = [s] -> (r_metric s < List.length (metrics r))%nat ->
  r_interval s = 1000 -> r_value s = whole v0 -> m_value m = whole v -> 0 <= v0 <= v -> v <= 16777216 -> 1 <= k <= 134217 ->
  exists x, value_of (do_call (Get b (r_last s + 1000 * k)) r) (r_metric s) = Some x
    /\ Z.abs (x * k - whole (v - v0)) * 16777216 <= whole (v - v0)
    /\ (forall q, v - v0 = q * k -> x = whole q).
Proof.
  intros r b m s v0 v k C M R L I0 V0 V B1 B2 K.
  assert (D : due (r_last s + 1000 * k) s = true) by (unfold due; rewrite I0; lia).
  assert (A : average (m_value m) (r_last s + 1000 * k) s = fl (whole (v - v0)) k).
  { unfold average. rewrite V, V0, I0. replace (r_last s + 1000 * k - r_last s) with (1000 * k) by lia.
    assert (Fs : fsub (whole v) (whole v0) = whole (v - v0)).
    { unfold fsub. replace (whole v - whole v0) with (whole (v - v0)) by (unfold whole; lia). apply fl_exact, whole_float. lia. }
    rewrite Fs. rewrite (average_ok (v - v0) k) by lia. reflexivity. }
  pose proof (rate_value r b m s _ C M R L D) as W. rewrite A in W.
  exists (fl (whole (v - v0)) k). split; [|split].
  - cbn [do_call]. unfold metric_get. rewrite C. destruct (nth_error (metrics (update_rates b (r_last s + 1000 * k) r)) b) eqn:E; auto.
    exfalso. apply nth_error_None in E. pose proof (frame_update b (r_last s + 1000 * k) r) as F. unfold frame_of in F.
    assert (L0 : (b < List.length (metrics r))%nat) by (apply nth_error_Some; congruence). injection F as _ _ F. lia.
  - apply average_error; lia.
  - intros q Q. rewrite Q. apply average_exact; [nia | lia].
Qed.
(** From one measurement to the next: a rate measured at [t], then [d] added at [t'] within the second, read [k] seconds after [t]: what is
    shown is the float nearest to [d / k], whatever was counted before [t]. *)
Theorem C100_between : forall r b m s v d t t' k,
  has_clock r = true -> nth_error (metrics r) b = Some m -> m_rates m = [s] -> (r_metric s < List.length (metrics r))%nat -> r_metric s <> b ->
  r_interval s = 1000 -> m_value m = whole v -> r_last s + 1000 <= t -> t <= t' < t + 1000 -> 0 <= v -> 0 <= d -> v + d <= 16777216 ->
  1 <= k <= 134217 ->
  exists x, value_of (do_calls [Get b t; Inc b (whole d) t'; Get b (t + 1000 * k)] r) (r_metric s) = Some x
    /\ Z.abs (x * k - whole d) * 16777216 <= whole d
    /\ (forall q, d = q * k -> x = whole q).
Proof.
  intros r b m s v d t t' k C M R L N I0 V D1 T' V0 D0 B K.
  change (do_calls [Get b t; Inc b (whole d) t'; Get b (t + 1000 * k)] r)
    with (do_call (Get b (t + 1000 * k)) (do_call (Inc b (whole d) t') (do_call (Get b t) r))).
  rewrite (get_update r b m s t C M R N).
  pose proof (update_at r b m s t C M R N) as M1.
  destruct (update_clock r b t) as [C1 L1]. set (r1 := update_rates b t r) in *. clearbody r1.
  replace (due t s) with true in M1 by (symmetry; unfold due; rewrite I0; lia).
  set (s1 := mkRate (r_metric s) (r_interval s) t (m_value m)) in *.
  rewrite C in C1.
  change (do_call (Inc b (whole d) t') r1) with (metric_inc b (whole d) t' r1). unfold metric_inc. rewrite C1.
  set (f := fun m0 => set_value (fadd (m_value m0) (whole d)) t' m0).
  assert (M2 : nth_error (metrics (on b f r1)) b = Some (f (set_rates [s1] m))) by (rewrite nth_on, Nat.eqb_refl, M1; reflexivity).
  assert (C2 : has_clock (on b f r1) = true) by exact C1.
  assert (L2 : List.length (metrics (on b f r1)) = List.length (metrics r)) by (rewrite length_on; exact L1).
  set (r2 := on b f r1) in *. clearbody r2.
  assert (R2 : m_rates (f (set_rates [s1] m)) = [s1]) by reflexivity.
  pose proof (update_at r2 b _ s1 t' C2 M2 R2 N) as M3.
  replace (due t' s1) with false in M3 by (symmetry; unfold due, s1; cbn [r_last r_interval]; rewrite I0; lia).
  destruct (update_clock r2 b t') as [C3 L3]. rewrite C2 in C3. rewrite L2 in L3.
  set (r3 := update_rates b t' r2) in *. clearbody r3.
  assert (E : m_value (set_rates [s1] (f (set_rates [s1] m))) = whole (v + d)).
  { change (fadd (m_value m) (whole d) = whole (v + d)). rewrite V. apply fadd_whole. lia. }
  assert (L4 : (r_metric s1 < List.length (metrics r3))%nat) by (unfold s1; cbn [r_metric]; rewrite L3; exact L).
  destruct (C100_rate_partial r3 b _ s1 v (v + d) k C3 M3 eq_refl L4 I0 V E ltac:(lia) ltac:(lia) K) as (x & X1 & X2 & X3).
  replace (v + d - v) with d in * by lia. exists x. split; [exact X1|]. split; [exact X2 | exact X3].
Qed.
Example C100_between_ex :
  let r := do_calls [Register (text "in"); RegisterRate 0 1; Inc 0 (whole 5) 1700000000000; Inc 0 (whole 30) 1700000000500]
             (create_context true) in
  exists m s, nth_error (metrics r) 0 = Some m /\ m_rates m = [s] /\ r_metric s = 1%nat /\ r_interval s = 1000 /\ m_value m = whole 35 /\
    r_last s + 1000 <= 1700000002000 /\
    value_of (do_calls [Get 0 1700000002000; Inc 0 (whole 12) 1700000002300; Get 0 (1700000002000 + 1000 * 4)] r) 1 = Some (whole 3).
Proof. eexists _, _. repeat split; vm_compute; try reflexivity; discriminate. Qed.
(** Within a second of the last measurement reading changes nothing. *)
Theorem C100_not_yet : forall r b m s now i,
  nth_error (metrics r) b = Some m -> m_rates m = [s] -> now < r_last s + r_interval s ->
  value_of (do_call (Get b now) r) i = value_of r i.
Proof.
  intros r b m s now i M R N. cbn [do_call]. unfold metric_get. destruct (has_clock r); auto.
  destruct (nth_error (metrics (update_rates b now r)) b); auto. eapply rate_not_due; eauto. unfold due. lia.
Qed.
(** A rate is measured only when its base metric is added to, set or read: what is shown after the traffic has stopped is the old rate, at
    every later time and however often the rate itself is read. *)
Theorem C100_stale_refuted : forall r b i cs, (i < List.length (metrics r))%nat -> (forall b', rate_of r b' i -> b' = b) ->
  Forall (away_from b i) cs -> value_of (do_calls cs r) i = value_of r i.
Proof. intros. eapply stale_run; eauto. Qed.
(** The first measurement divides by the time since 1970: 1000000 bytes in the first second are shown as less than 0.001 per second. *)
Theorem C100_first_refuted : exists r now x,
  r = do_calls [Register (text "in"); RegisterRate 0 1; Inc 0 (whole 1000000) now] (create_context true) /\ now = 1700000000000 /\
  value_of r 0 = Some (whole 1000000) /\ value_of r 1 = Some x /\ x * 1000 < whole 1.
Proof.
  eexists _, _, _. split; [reflexivity|]. split; [reflexivity|]. split; [vm_compute; reflexivity|].
  split; [vm_compute; reflexivity|]. vm_compute. reflexivity.
Qed.

Example C100_ex :
  let r := do_calls [Register (text "in"); RegisterRate 0 1; Inc 0 (whole 5) 1700000000000; Inc 0 (whole 30) 1700000000000]
             (create_context true) in
  exists m s, nth_error (metrics r) 0 = Some m /\ m_rates m = [s] /\ r_metric s = 1%nat /\ r_interval s = 1000 /\ r_value s = whole 5 /\
    m_value m = whole 35 /\ value_of (do_call (Get 0 1700000010000) r) 1 = Some (whole 3).
Proof. eexists _, _. repeat split; vm_compute; reflexivity. Qed.

(** ** C101: the exported text *)
(** Exporting writes outside of the buffer: for every context with metrics (names of two characters or more, up to 65535 characters in
    all). *)
Theorem C101_export_refuted : forall r, metrics r <> [] ->
  (forall m, In m (metrics r) -> (2 <= List.length (m_name m))%nat /\ usual m) -> lengths r <= 65535 -> format r = UB.
Proof. apply export_bad. Qed.
(** So it is for every node, whatever happened before. *)
Theorem C101_node_refuted : forall version node ident inst now cs, Forall long_name cs ->
  let r := do_calls cs (node_registry version node ident inst now) in
  (forall m, In m (metrics r) -> usual m) -> lengths r <= 65535 -> format r = UB.
Proof.
  intros version node ident inst now cs C r U L. apply export_bad; auto.
  - intros E. pose proof (length_calls cs (node_registry version node ident inst now)) as Le. fold r in Le. rewrite E in Le. cbn [List.length] in Le.
    pose proof (node_some version node ident inst now) as NS. destruct (metrics (node_registry version node ident inst now)); [auto | cbn [List.length] in Le; lia].
  - intros m I. split; auto.
    assert (F : Forall (fun n => (2 <= List.length n)%nat) (names r)).
    { apply names_calls; auto. unfold node_registry. apply names_calls. apply node_long. constructor. }
    rewrite Forall_forall in F. apply F. apply in_map. auto.
Qed.
(** Without metrics the text is empty. *)
Theorem C101_empty : forall clock, format (create_context clock) = Ok [Some 0].
Proof. intros. vm_compute. reflexivity. Qed.
(** The size computed would be enough for the text and its zero (values and times of at most 13 digits). *)
Theorem C101_room_partial : forall r, (forall m, In m (metrics r) -> usual m) -> lengths r < 4294967295 ->
  Z.of_nat (List.length (document show (unsigned 20) r)) + 1 <= buffer_size r.
Proof. apply room. Qed.
(** It is too small for larger values: a byte counter above ten terabytes. *)
Theorem C101_room_refuted : exists r, r = do_calls [Register (text "in"); Inc 0 (whole 20000000000000) 1700000000000] (create_context true) /\
  buffer_size r < Z.of_nat (List.length (document show (unsigned 20) r)) + 1.
Proof. eexists. split. reflexivity. vm_compute. reflexivity. Qed.
(** After a request for the metrics the lock of the context is held for ever: no other thread can register a metric or export again. *)
Theorem C101_lock_refuted : forall t u n rw, t <> u -> exists k,
  requests t (S n) (mkLocks None rw) = Some k /\ with_w_lock u k = None /\ handle_metrics u k = None.
Proof.
  intros t u n rw N. destruct (requests_hold t (S n) 0 rw) as [rw' E]. cbn [Nat.add] in E. eexists. split. apply E.
  unfold handle_metrics, with_w_lock, mutex_lock. cbn [w_lock]. apply Nat.eqb_neq in N. rewrite N. auto.
Qed.
(** With a description of 255 characters or more the text is read behind the end of the description. *)
Theorem C101_description_refuted : forall r m d, nth_error (metrics r) 0 = Some m -> ~ rate_of r 0 0 -> (255 <= List.length d)%nat ->
  format (set_node_description d r) = UB.
Proof.
  intros r m d M N L. unfold format, set_node_description. set (l := mkLabel _ _).
  pose proof (replace_at 0 l r m M N) as E.
  assert (U : readable (if has_label l m then replace1 l m else add1 l m) = false).
  { assert (X : exists y, In y (m_labels (if has_label l m then replace1 l m else add1 l m)) /\ terminated (l_value y) = false).
    { assert (T : terminated (field d) = false).
      { unfold terminated, field. rewrite firstn_length. apply Nat.ltb_ge. lia. }
      assert (T2 : terminated (field (field d)) = false).
      { unfold terminated, field in *. rewrite !firstn_length in *. apply Nat.ltb_ge. apply Nat.ltb_ge in T. lia. }
      destruct (has_label l m) eqn:H.
      - unfold has_label in H. apply existsb_exists in H. destruct H as [x [I S0]].
        exists (mkLabel (l_name x) (field (l_value l))). split; [|exact T2]. cbn [replace1 set_labels m_labels].
        apply in_map_iff. exists x. rewrite S0. auto.
      - exists l. split; [left; reflexivity | exact T]. }
    destruct X as [y [I T]]. unfold readable. apply andb_false_intro2. apply not_true_is_false. intros F.
    rewrite forallb_forall in F. specialize (F y I). rewrite T in F. apply andb_prop in F. destruct F. discriminate. }
  assert (F : forallb readable (metrics (replace_label 0 l r)) = false).
  { apply not_true_is_false. intros F. rewrite forallb_forall in F. apply nth_error_In in E. specialize (F _ E). congruence. }
  rewrite F. reflexivity.
Qed.
(** Label values are not escaped: a description with a line break adds a line, here a metric of its own. *)
Theorem C101_lines_refuted : exists d r,
  r = set_node_description d (node_registry (text "1") (text "n") (text "i") (text "h") 1700000000000) /\
  line_count (document show (unsigned 20) r) <> List.length (metrics r).
Proof.
  exists (text "x""} 1" ++ [10] ++ text "forged{a=""b"). eexists. split. reflexivity. vm_compute. discriminate.
Qed.

Example C101_ex :
  let r := node_registry (text "1") (text "n") (text "i") (text "h") 1700000000000 in
  (forall m, In m (metrics r) -> usual m) /\ lengths r <= 65535 /\ List.length (metrics r) = 13%nat.
Proof.
  intros r. split; [|split; vm_compute; [discriminate | reflexivity]].
  assert (F : forallb (fun m => (0 <=? m_value m) && (m_value m <? whole 9999999999999) && (0 <=? m_time m) && (m_time m <? 10000000000000))
                (metrics r) = true) by (vm_compute; reflexivity).
  intros m I. rewrite forallb_forall in F. specialize (F m I). cbn beta in F. unfold usual. clear - F. lia.
Qed.

(** ** C102: labels *)
(** Setting a label: afterwards the metric carries it with this value and no other one, other labels and everything else of the metric stay. *)
Theorem C102_label : forall r i l m, nth_error (metrics r) i = Some m -> ~ rate_of r i i -> (List.length (l_value l) <= 255)%nat ->
  exists m', nth_error (metrics (replace_label i l r)) i = Some m'
    /\ label_values (l_name l) m' <> []
    /\ (forall v, In v (label_values (l_name l) m') -> v = l_value l)
    /\ List.length (label_values (l_name l) m') = Nat.max 1 (List.length (label_values (l_name l) m))
    /\ (forall n, n <> l_name l -> label_values n m' = label_values n m)
    /\ m_name m' = m_name m /\ m_value m' = m_value m /\ m_time m' = m_time m.
Proof.
  intros r i l m M N L. eexists. split. apply replace_at; eauto.
  assert (F : field (l_value l) = l_value l) by (apply firstn_all2; auto).
  pose proof (has_label_values l m) as HV. destruct (has_label l m) eqn:H.
  - assert (NE : label_values (l_name l) m <> []) by (apply HV; auto).
    rewrite replace_own, F. destruct (label_values (l_name l) m) as [|v vs]; [congruence|].
    cbn [List.length repeat]. split; [discriminate|]. split.
    { intros x [<- | I]; auto. eapply repeat_spec; eauto. }
    split. { rewrite repeat_length. lia. }
    split; [intros; apply replace_other; auto | auto].
  - assert (E : label_values (l_name l) m = []).
    { destruct (label_values (l_name l) m); auto. assert (false = true) by (apply HV; discriminate). discriminate. }
    rewrite add_own, E. split; [discriminate|]. split. { intros x [<- | []]; auto. } split; [reflexivity|].
    split; [intros; apply add_other; auto | auto].
Qed.
(** Metrics other than this one and its rates are not touched. *)
Theorem C102_others : forall r i l j, j <> i -> ~ rate_of r i j ->
  nth_error (metrics (replace_label i l r)) j = nth_error (metrics r) j.
Proof. intros. apply replace_elsewhere; auto. Qed.
(** The rates of a metric that carries the label carry it with the new value and no other one as well, also those that did not carry it before. *)
Theorem C102_rates : forall r i l m j mj, nth_error (metrics r) i = Some m -> label_values (l_name l) m <> [] -> (List.length (l_value l) <= 255)%nat ->
  rate_of r i j -> nth_error (metrics r) j = Some mj ->
  exists mj', nth_error (metrics (replace_label i l r)) j = Some mj' /\ label_values (l_name l) mj' <> []
    /\ (forall v, In v (label_values (l_name l) mj') -> v = l_value l).
Proof. intros r i l m j mj M H L R J. apply (replace_rates r i l m j mj); auto. apply has_label_values. exact H. Qed.
Example C102_rates_ex :
  let r := do_calls [Register (text "in"); AddLabel 0 (mkLabel (text "a") (text "1")); RegisterRate 0 1] (create_context true) in
  rate_of r 0 1 /\ exists m, nth_error (metrics (replace_label 0 (mkLabel (text "a") (text "2")) r)) 1 = Some m /\
    label_values (text "a") m = [text "2"] /\ label_values (text "interval") m = [text "1"].
Proof.
  split. { eexists _, _. split; [vm_compute; reflexivity|]. split; [left; reflexivity | reflexivity]. }
  eexists. split; [vm_compute; reflexivity|]. split; vm_compute; reflexivity.
Qed.
(** A rate gets the label once more when only the rate has it. *)
Theorem C102_rate_refuted : exists r l m,
  r = do_calls [Register (text "in"); RegisterRate 0 1; ReplaceLabel 0 l] (create_context true) /\ l_name l = text "interval" /\
  nth_error (metrics r) 1 = Some m /\ label_values (l_name l) m = [text "2"; text "1"].
Proof.
  exists (do_calls [Register (text "in"); RegisterRate 0 1; ReplaceLabel 0 (mkLabel (text "interval") (text "2"))] (create_context true)).
  eexists (mkLabel (text "interval") (text "2")), _. repeat split; vm_compute; reflexivity.
Qed.
Example C102_ex :
  let r := node_registry (text "1") (text "n") (text "i") (text "h") 1700000000000 in
  exists m, nth_error (metrics r) 0 = Some m /\ label_values (text "description") m = [text "None"] /\
    exists m', nth_error (metrics (set_node_description (text "my node") r)) 0 = Some m' /\
    label_values (text "description") m' = [text "my node"].
Proof. eexists. split. vm_compute; reflexivity. split. reflexivity. eexists. split; vm_compute; reflexivity. Qed.

Print Assumptions C99_counter_partial.
Print Assumptions C99_new.
Print Assumptions C99_never_down.
Print Assumptions C99_others.
Print Assumptions C99_stops_refuted.
Print Assumptions C99_no_clock_refuted.
Print Assumptions C100_rate_partial.
Print Assumptions C100_between.
Print Assumptions C100_not_yet.
Print Assumptions C100_stale_refuted.
Print Assumptions C100_first_refuted.
Print Assumptions C101_export_refuted.
Print Assumptions C101_node_refuted.
Print Assumptions C101_empty.
Print Assumptions C101_room_partial.
Print Assumptions C101_room_refuted.
Print Assumptions C101_lock_refuted.
Print Assumptions C101_description_refuted.
Print Assumptions C101_lines_refuted.
Print Assumptions C102_label.
Print Assumptions C102_others.
Print Assumptions C102_rates.
Print Assumptions C102_rate_refuted.
