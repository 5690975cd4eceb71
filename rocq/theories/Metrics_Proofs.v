From Coq Require Import String.
From Verif Require Import Base Uuid_Model Uuid_Proofs Lock_Model Metrics_Model Metrics_Spec.
Open Scope list_scope.
Open Scope Z_scope.

(** ** Rounding *)
Lemma re_cases a b : 0 < b -> a / b <= round_even a b <= a / b + 1.
Proof.
  intros B. unfold round_even. destruct (2 * (a mod b) <? b), (b <? 2 * (a mod b)), (Z.even (a / b)); lia.
Qed.
Lemma re_mono a a' b : 0 < b -> a <= a' -> round_even a b <= round_even a' b.
Proof.
  intros B L. assert (Q : a / b <= a' / b) by (apply Z.div_le_mono; lia).
  destruct (Z.eq_dec (a / b) (a' / b)) as [E | N].
  - pose proof (Z.div_mod a b ltac:(lia)) as D1. pose proof (Z.div_mod a' b ltac:(lia)) as D2.
    unfold round_even. rewrite E in *. set (q := a' / b) in *. clearbody q.
    assert (M : a mod b <= a' mod b) by lia. set (x := a mod b) in *. set (y := a' mod b) in *. clearbody x y.
    destruct (Z.ltb_spec (2 * x) b); destruct (Z.ltb_spec (2 * y) b); destruct (Z.ltb_spec b (2 * x)); destruct (Z.ltb_spec b (2 * y));
      destruct (Z.even q); lia.
  - pose proof (re_cases a b B). pose proof (re_cases a' b B). lia.
Qed.
Lemma re_exact q b : 0 < b -> round_even (q * b) b = q.
Proof.
  intros B. unfold round_even. rewrite Z.div_mul, Z.mod_mul by lia.
  destruct (Z.ltb_spec (2 * 0) b); lia.
Qed.
Lemma re_scale a b c : 0 < b -> 0 < c -> round_even (a * c) (b * c) = round_even a b.
Proof.
  intros B C. unfold round_even. rewrite Z.div_mul_cancel_r, Z.mul_mod_distr_r by lia.
  replace (2 * (a mod b * c) <? b * c) with (2 * (a mod b) <? b)
    by (destruct (Z.ltb_spec (2 * (a mod b)) b), (Z.ltb_spec (2 * (a mod b * c)) (b * c)); nia).
  replace (b * c <? 2 * (a mod b * c)) with (b <? 2 * (a mod b))
    by (destruct (Z.ltb_spec b (2 * (a mod b))), (Z.ltb_spec (b * c) (2 * (a mod b * c))); nia).
  reflexivity.
Qed.

Definition ulp (q : Z) : Z := Z.max 0 (Z.log2 q - 23).
Lemma ulp_nonneg q : 0 <= ulp q. Proof. unfold ulp. lia. Qed.
Lemma pow_pos k : 0 <= k -> 0 < 2 ^ k. Proof. intros. apply Z.pow_pos_nonneg; lia. Qed.
Lemma fl_pos n d : 0 <= n -> 0 < d -> fl n d = round_even n (d * 2 ^ ulp (n / d)) * 2 ^ ulp (n / d).
Proof.
  intros N D. unfold fl. fold (ulp (Z.abs n / d)). rewrite Z.abs_eq by lia.
  destruct (Z.eq_dec n 0) as [-> | NZ].
  - cbn [Z.sgn]. rewrite <- (re_exact 0 (d * 2 ^ ulp (0 / d))) at 1.
    2:{ pose proof (pow_pos (ulp (0 / d)) (ulp_nonneg _)). nia. }
    replace (round_even 0 (d * 2 ^ ulp (0 / d))) with 0. lia.
    symmetry. apply (re_exact 0). pose proof (pow_pos (ulp (0 / d)) (ulp_nonneg _)). nia.
  - rewrite (Z.sgn_pos n) by lia. lia.
Qed.
Lemma ulp_size q : 0 <= q -> q < 16777216 * 2 ^ ulp q.
Proof.
  intros Q. destruct (Z.eq_dec q 0) as [-> | NZ].
  { pose proof (pow_pos (ulp 0) (ulp_nonneg _)). lia. }
  pose proof (Z.log2_spec q ltac:(lia)) as [_ H]. change 16777216 with (2 ^ 24).
  rewrite <- Z.pow_add_r by (pose proof (ulp_nonneg q); lia).
  eapply Z.lt_le_trans. apply H. apply Z.pow_le_mono_r. lia. unfold ulp. lia.
Qed.
Lemma ulp_low q : 0 < ulp q -> 8388608 * 2 ^ ulp q <= q.
Proof.
  intros U. unfold ulp in *. assert (L : 0 < Z.log2 q) by lia.
  assert (Q : 0 < q) by (destruct (Z_lt_le_dec 0 q); auto; rewrite Z.log2_nonpos in U by lia; lia).
  pose proof (Z.log2_spec q ltac:(lia)) as [H _]. change 8388608 with (2 ^ 23).
  rewrite <- Z.pow_add_r by lia. replace (23 + Z.max 0 (Z.log2 q - 23)) with (Z.log2 q) by lia. auto.
Qed.
Lemma ulp_mono a b : 0 <= a -> a <= b -> ulp a <= ulp b.
Proof. intros A L. unfold ulp. pose proof (Z.log2_le_mono a b L). lia. Qed.

(** *** Sums: fractions with denominator 1 *)
Lemma fl1 z : 0 <= z -> fl z 1 = round_even z (2 ^ ulp z) * 2 ^ ulp z.
Proof. intros Z0. rewrite fl_pos by lia. rewrite Z.div_1_r, Z.mul_1_l. auto. Qed.
Lemma re_top z : 0 <= z -> 0 <= round_even z (2 ^ ulp z) <= 16777216.
Proof.
  intros Z0. pose proof (pow_pos _ (ulp_nonneg z)) as P.
  pose proof (ulp_size z Z0) as Sz. set (p := 2 ^ ulp z) in *. clearbody p.
  pose proof (re_mono z (16777216 * p) p P ltac:(lia)) as M. rewrite re_exact in M by auto.
  pose proof (re_mono (0 * p) z p P ltac:(lia)) as M0. rewrite re_exact in M0 by auto. lia.
Qed.
Lemma fl_is_float z : 0 <= z -> is_float (fl z 1).
Proof.
  intros Z0. rewrite fl1 by auto. exists (round_even z (2 ^ ulp z)), (ulp z).
  split. apply re_top; auto. split; auto. apply ulp_nonneg.
Qed.
Lemma ulp_float m e : 0 <= m < 16777216 -> 0 <= e -> ulp (m * 2 ^ e) <= e.
Proof.
  intros M E. unfold ulp. destruct (Z.eq_dec m 0) as [-> | NZ]. { rewrite Z.mul_0_l. change (Z.max 0 (Z.log2 0 - 23)) with 0. auto. }
  assert (L : Z.log2 (m * 2 ^ e) < 24 + e).
  { apply Z.log2_lt_pow2. pose proof (pow_pos e E). nia. rewrite Z.pow_add_r by lia. change (2 ^ 24) with 16777216.
    pose proof (pow_pos e E). nia. }
  lia.
Qed.
Lemma fl_exact' m e : 0 <= m < 16777216 -> 0 <= e -> fl (m * 2 ^ e) 1 = m * 2 ^ e.
Proof.
  intros M E. pose proof (pow_pos e E) as P. rewrite fl1 by nia. pose proof (ulp_float m e M E) as U.
  set (u := ulp (m * 2 ^ e)) in *. assert (U0 : 0 <= u) by apply ulp_nonneg.
  replace (m * 2 ^ e) with (m * 2 ^ (e - u) * 2 ^ u) at 1 2.
  2:{ rewrite <- Z.mul_assoc, <- Z.pow_add_r by lia. f_equal. f_equal. lia. }
  rewrite re_exact by (apply pow_pos; auto). auto.
Qed.
Lemma fl_exact v : is_float v -> fl v 1 = v.
Proof.
  intros [m [e [M [E ->]]]]. destruct (Z.eq_dec m 16777216) as [-> | N].
  - replace (16777216 * 2 ^ e) with (8388608 * 2 ^ (e + 1)).
    2:{ rewrite Z.pow_add_r by lia. change (2 ^ 1) with 2. lia. }
    apply fl_exact'; lia.
  - apply fl_exact'; lia.
Qed.
Lemma fl_mono a b : 0 <= a -> a <= b -> fl a 1 <= fl b 1.
Proof.
  intros A L. rewrite !fl1 by lia. pose proof (ulp_mono a b A L) as U. pose proof (ulp_nonneg a) as Ua.
  pose proof (re_top a A) as Ra. pose proof (pow_pos _ Ua) as Pa. pose proof (pow_pos _ (ulp_nonneg b)) as Pb.
  destruct (Z.eq_dec (ulp a) (ulp b)) as [E | N].
  - rewrite E. apply Z.mul_le_mono_nonneg_r. lia. apply re_mono; auto.
  - pose proof (ulp_low b ltac:(lia)) as Lb.
    pose proof (re_mono (8388608 * 2 ^ ulp b) b (2 ^ ulp b) Pb Lb) as M. rewrite re_exact in M by auto.
    assert (S2 : 2 * 2 ^ ulp a <= 2 ^ ulp b).
    { change 2 with (2 ^ 1) at 1. rewrite <- Z.pow_add_r by lia. apply Z.pow_le_mono_r; lia. }
    transitivity (16777216 * 2 ^ ulp a). nia. nia.
Qed.
Lemma whole_float n : 0 <= n <= 16777216 -> is_float (whole n).
Proof. intros N. exists n, 149. unfold whole. repeat split; lia. Qed.
Lemma fadd_whole a b : 0 <= a + b <= 16777216 -> fadd (whole a) (whole b) = whole (a + b).
Proof.
  intros N. unfold fadd. replace (whole a + whole b) with (whole (a + b)) by (unfold whole; lia). apply fl_exact, whole_float. auto.
Qed.
Lemma fadd_up v x : is_float v -> 0 <= x -> v <= fadd v x /\ is_float (fadd v x).
Proof.
  intros F X. assert (V : 0 <= v) by (destruct F as [m [e [M [E ->]]]]; pose proof (pow_pos e E); nia).
  unfold fadd. split. 2: apply fl_is_float; lia.
  rewrite <- (fl_exact v F) at 1. apply fl_mono; lia.
Qed.
Lemma one_whole : one = whole 1.
Proof. reflexivity. Qed.

(** *** Quotients *)
Lemma fl_scale n d c : 0 <= n -> 0 < d -> 0 < c -> fl (n * c) (d * c) = fl n d.
Proof.
  intros N D C. rewrite !fl_pos by nia. rewrite Z.div_mul_cancel_r by lia. set (u := ulp (n / d)).
  replace (d * c * 2 ^ u) with (d * 2 ^ u * c) by lia. rewrite re_scale; auto.
  pose proof (pow_pos u (ulp_nonneg _)). nia.
Qed.
Lemma fl_multiple q d : 0 <= q -> 0 < d -> fl (q * d) d = fl q 1.
Proof. intros Q D. rewrite <- (fl_scale q 1 d) by lia. rewrite Z.mul_1_l. auto. Qed.
(** the error of a quotient of large numbers is at most one part in 2^24 *)
Lemma fl_error n d : 0 < d -> 16777216 <= n / d -> 0 <= n -> Z.abs (fl n d * d - n) * 16777216 <= n.
Proof.
  intros D Big N. rewrite fl_pos by lia. set (q := n / d) in *.
  assert (U : 0 < ulp q).
  { unfold ulp. assert (24 <= Z.log2 q). apply Z.log2_le_pow2. lia. change (2 ^ 24) with 16777216. lia. lia. }
  pose proof (ulp_low q U) as Low. pose proof (pow_pos _ (ulp_nonneg q)) as P. set (p := 2 ^ ulp q) in *.
  pose proof (round_even_bounds n (d * p) ltac:(nia)) as B. set (x := round_even n (d * p)) in *.
  assert (Q : q * d <= n) by (unfold q; pose proof (Z.mul_div_le n d D); lia).
  assert (W : 8388608 * (d * p) <= n) by (clear - Low Q D P; nia).
  replace (x * p * d) with (d * p * x) by lia. set (y := d * p * x) in *.
  assert (Y : 2 * n - d * p <= 2 * y <= 2 * n + d * p) by (unfold y; clear - B; nia).
  clear - Y W. lia.
Qed.

Lemma average_ok d k : 0 <= d <= 16777216 -> 1 <= k <= 134217 ->
  fdiv (whole d) (fdiv (of_int (1000 * k)) (of_int 1000)) = fl (whole d) k.
Proof.
  intros D K. unfold of_int.
  replace (fl (1000 * k * one) 1) with (1000 * k * one).
  2:{ symmetry. replace (1000 * k * one) with (125 * k * 2 ^ 152). apply fl_exact'; lia.
      unfold one. change (2 ^ 152) with (8 * 2 ^ 149). lia. }
  replace (fl (1000 * one) 1) with (1000 * one).
  2:{ symmetry. replace (1000 * one) with (1000 * 2 ^ 149). apply fl_exact'; lia. reflexivity. }
  assert (O1 : 0 < one) by (unfold one; lia).
  unfold fdiv at 2. replace (1000 * k * one * one) with ((k * one) * (1000 * one)) by ring. rewrite fl_multiple by (clear - O1 K; nia).
  replace (fl (k * one) 1) with (k * one).
  2:{ symmetry. apply fl_exact. apply (whole_float k). lia. }
  unfold fdiv. apply fl_scale; try lia. unfold whole. lia.
Qed.
Lemma average_error d k : 0 <= d <= 16777216 -> 1 <= k <= 134217 -> Z.abs (fl (whole d) k * k - whole d) * 16777216 <= whole d.
Proof.
  intros D K. destruct (Z.eq_dec d 0) as [-> | NZ].
  { replace (whole 0) with (0 * k) by (unfold whole; lia). rewrite fl_multiple by lia.
    replace (fl 0 1) with 0 by reflexivity. lia. }
  apply fl_error. lia. 2: unfold whole; lia.
  apply Z.div_le_lower_bound. lia. unfold whole. change (2 ^ 149) with (134217728 * (16777216 * 2 ^ 98)). nia.
Qed.
Lemma average_exact q k : 0 <= q <= 16777216 -> 1 <= k -> fl (whole (q * k)) k = whole q.
Proof.
  intros Q K. replace (whole (q * k)) with (whole q * k) by (unfold whole; lia). rewrite fl_multiple.
  apply fl_exact, whole_float; auto. unfold whole. lia. lia.
Qed.

(** ** The registry *)
Lemma nth_change {A} (f : A -> A) l i j :
  nth_error (change i f l) j = if Nat.eqb j i then option_map f (nth_error l j) else nth_error l j.
Proof.
  revert i j. induction l as [|x l IH]; intros i j.
  - destruct i, j; cbn; try reflexivity; destruct (Nat.eqb j i); reflexivity.
  - destruct i, j; cbn; auto.
Qed.
Lemma length_change {A} (f : A -> A) l i : length (change i f l) = length l.
Proof. revert i. induction l; intros [|i]; cbn; auto. Qed.
Lemma map_change {A B} (g : A -> B) (f : A -> A) l i : (forall x, g (f x) = g x) -> map g (change i f l) = map g l.
Proof. intros H. revert i. induction l; intros [|i]; cbn; auto; [rewrite H | rewrite IHl]; auto. Qed.
Lemma map_change_at {A B} (g : A -> B) (f : A -> A) l i x :
  nth_error l i = Some x -> g (f x) = g x -> map g (change i f l) = map g l.
Proof.
  revert i. induction l as [|y l IH]; intros [|i] N G; cbn in *; auto; try discriminate.
  - injection N as ->. rewrite G. auto.
  - rewrite IH; auto.
Qed.
Lemma fold_keep {A B C} (p : B -> C) (h : B -> A -> B) l b : (forall b x, In x l -> p (h b x) = p b) -> p (fold_left h l b) = p b.
Proof.
  revert b. induction l as [|x l IH]; cbn; intros b H; auto. rewrite IH; auto.
Qed.

Notation met r i := (nth_error (metrics r) i).
Definition vals (r : registry) : list Z := map m_value (metrics r).
Definition targets (r : registry) : list (list nat) := map (fun m => map r_metric (m_rates m)) (metrics r).

Lemma value_vals r i : value_of r i = nth_error (vals r) i.
Proof. unfold value_of, vals. rewrite nth_error_map. destruct (nth_error (metrics r) i); reflexivity. Qed.
Lemma rate_targets r b i : rate_of r b i <-> exists l, nth_error (targets r) b = Some l /\ In i l.
Proof.
  unfold rate_of, targets. rewrite nth_error_map. split.
  - intros [m [s [M [I E]]]]. rewrite M. cbn. eexists. split; eauto. subst i. apply in_map. auto.
  - intros [l [E I]]. destruct (nth_error (metrics r) b) as [m|]; [|discriminate]. cbn in E. injection E as <-.
    apply in_map_iff in I. destruct I as [s [S1 S2]]. eauto.
Qed.
Lemma nth_on i j f r : met (on i f r) j = if Nat.eqb j i then option_map f (met r j) else met r j.
Proof. apply nth_change. Qed.
Lemma vals_on i f r : (forall m, m_value (f m) = m_value m) -> vals (on i f r) = vals r.
Proof. intros H. apply map_change. auto. Qed.
Lemma targets_on i f r : (forall m, map r_metric (m_rates (f m)) = map r_metric (m_rates m)) -> targets (on i f r) = targets r.
Proof. intros H. apply (map_change (fun m => map r_metric (m_rates m))). auto. Qed.
Lemma clock_on i f r : has_clock (on i f r) = has_clock r. Proof. reflexivity. Qed.
Lemma length_on i f r : length (metrics (on i f r)) = length (metrics r). Proof. apply length_change. Qed.

(** one fact about a call: what it keeps.  [keeps_all]: values, rates' places, number of metrics and clock *)
Definition shape (r : registry) : list Z * list (list nat) * bool * nat := (vals r, targets r, has_clock r, length (metrics r)).
Definition frame_of (r : registry) : list (list nat) * bool * nat := (targets r, has_clock r, length (metrics r)).
Lemma shape_on i f r : (forall m, m_value (f m) = m_value m /\ m_rates (f m) = m_rates m) -> shape (on i f r) = shape r.
Proof.
  intros H. unfold shape. rewrite vals_on, targets_on, length_on by (intros m; destruct (H m) as [A B]; rewrite ?A, ?B; auto). reflexivity.
Qed.
Lemma frame_on i f r : (forall m, map r_metric (m_rates (f m)) = map r_metric (m_rates m)) -> frame_of (on i f r) = frame_of r.
Proof. intros H. unfold frame_of. rewrite targets_on, length_on by auto. reflexivity. Qed.
Lemma shape_add i l r : shape (add_label i l r) = shape r.
Proof.
  unfold add_label. destruct (met r i); auto.
  rewrite (fold_keep shape) by (intros; apply shape_on; intros; split; reflexivity). apply shape_on. intros; split; reflexivity.
Qed.
Lemma shape_replace i l r : shape (replace_label i l r) = shape r.
Proof.
  unfold replace_label. destruct (met r i); auto. destruct (has_label l m). 2: apply shape_add.
  rewrite (fold_keep shape). apply shape_on. intros; split; reflexivity.
  intros b x _. apply shape_on. intros y. unfold replace_or_add. destruct (has_label l y); split; reflexivity.
Qed.
Lemma frame_update i now r : frame_of (update_rates i now r) = frame_of r.
Proof.
  unfold update_rates. destruct (met r i) as [m|] eqn:M; auto. destruct (has_clock r); auto.
  assert (F : frame_of (fold_left (fun r0 s => if due now s then on (r_metric s) (set_value (average (m_value m) now s) now) r0 else r0)
                      (m_rates m) r) = frame_of r).
  { rewrite (fold_keep frame_of); auto. intros b x _. destruct (due now x); auto. apply frame_on. reflexivity. }
  set (r1 := fold_left _ _ _) in *.
  destruct (met r1 i) as [m1|] eqn:E1.
  2:{ exfalso. apply nth_error_None in E1. assert (L : (i < length (metrics r))%nat) by (apply nth_error_Some; congruence).
      unfold frame_of in F. injection F as _ _ F. lia. }
  assert (M1 : m_rates m1 = m_rates m).
  { assert (X : option_map m_rates (met r1 i) = Some (m_rates m)).
    { unfold r1. rewrite (fold_keep (fun r => option_map m_rates (met r i))). rewrite M. reflexivity.
      intros b x _. destruct (due now x); auto. rewrite nth_on. destruct (Nat.eqb i (r_metric x)); auto. destruct (met b i); reflexivity. }
    rewrite E1 in X. cbn in X. congruence. }
  rewrite <- F. unfold frame_of. rewrite length_on, clock_on. f_equal. f_equal.
  apply (map_change_at (fun m => map r_metric (m_rates m))) with (x := m1); auto.
  cbn. rewrite M1, map_map. apply map_ext. intros s. destruct (due now s); reflexivity.
Qed.

Lemma vals_set_other i j v t r : i <> j -> nth_error (vals (on j (set_value v t) r)) i = nth_error (vals r) i.
Proof.
  intros N. unfold vals. rewrite !nth_error_map, nth_on. apply Nat.eqb_neq in N. rewrite N. auto.
Qed.
Lemma value_update i j now r : ~ rate_of r j i -> value_of (update_rates j now r) i = value_of r i.
Proof.
  intros N. rewrite !value_vals. unfold update_rates. destruct (met r j) as [m|] eqn:M; auto. destruct (has_clock r); auto.
  rewrite vals_on by reflexivity.
  rewrite (fold_keep (fun r => nth_error (vals r) i)); auto.
  intros b x I. destruct (due now x); auto. apply vals_set_other. intros ->. apply N. exists m, x. auto.
Qed.
Lemma rate_update i j b now r : rate_of (update_rates j now r) b i <-> rate_of r b i.
Proof.
  rewrite !rate_targets. pose proof (frame_update j now r) as F. unfold frame_of in F. injection F as F _ _. rewrite F. reflexivity.
Qed.

(** *** Values under a call *)
Definition touches (r : registry) (i : nat) (c : call) : Prop :=
  match c with
  | Inc j _ _ | Set_ j _ _ => j = i \/ rate_of r j i
  | Get j _ => rate_of r j i
  | _ => False
  end.
Lemma value_shape r r' i : shape r = shape r' -> value_of r i = value_of r' i.
Proof. unfold shape. intros E. rewrite !value_vals. congruence. Qed.
Lemma rate_shape r r' b i : shape r = shape r' -> rate_of r b i <-> rate_of r' b i.
Proof. unfold shape. intros E. rewrite !rate_targets. injection E as _ -> _ _. reflexivity. Qed.
Lemma length_shape r r' : shape r = shape r' -> length (metrics r) = length (metrics r').
Proof. unfold shape. congruence. Qed.

(** register_rate in two steps *)
Definition labelled (base : nat) (sec : Z) (b : metric) (r : registry) : registry :=
  fold_left (fun r0 l => add_label (length (metrics r)) l r0) (m_labels b)
    (add_label (length (metrics r)) (interval_label sec) (register_metric (firstn 254 (m_name b ++ text "_per_secs"%string)) r)).
Lemma labelled_shape base sec b r : shape (labelled base sec b r) =
  shape (register_metric (firstn 254 (m_name b ++ text "_per_secs"%string)) r).
Proof.
  unfold labelled. rewrite (fold_keep shape) by (intros; apply shape_add). apply shape_add.
Qed.
Lemma register_rate_eq base sec r : register_rate base sec r =
  match met r base with
  | None => r
  | Some b => on base (set_rates (mkRate (length (metrics r)) (sec * 1000) 0 (m_value b) :: m_rates b)) (labelled base sec b r)
  end.
Proof. reflexivity. Qed.
Lemma vals_register n r : vals (register_metric n r) = vals r ++ [0].
Proof. unfold vals, register_metric. cbn. rewrite map_app. reflexivity. Qed.
Lemma targets_register n r : targets (register_metric n r) = targets r ++ [[]].
Proof. unfold targets, register_metric. cbn. rewrite map_app. reflexivity. Qed.
Lemma length_vals r : length (vals r) = length (metrics r). Proof. apply map_length. Qed.
Lemma length_targets r : length (targets r) = length (metrics r). Proof. apply map_length. Qed.
Lemma value_register n r i : (i < length (metrics r))%nat -> value_of (register_metric n r) i = value_of r i.
Proof. intros L. rewrite !value_vals, vals_register, nth_error_app1; auto. rewrite length_vals. auto. Qed.
Lemma rate_register n r b i : rate_of (register_metric n r) b i -> rate_of r b i.
Proof.
  rewrite !rate_targets, targets_register. intros [l [E I]].
  destruct (Nat.lt_ge_cases b (length (targets r))) as [L | L].
  - rewrite nth_error_app1 in E by auto. eauto.
  - rewrite nth_error_app2 in E by auto. destruct (b - length (targets r))%nat as [|[|x]]; cbn in E; try discriminate.
    injection E as <-. destruct I.
Qed.
Lemma rate_register_rate base sec r b i :
  (i < length (metrics r))%nat -> rate_of (register_rate base sec r) b i -> rate_of r b i.
Proof.
  intros L. rewrite register_rate_eq. destruct (met r base) as [m|] eqn:M; auto.
  intros [m' [s [M' [I E]]]]. rewrite nth_on in M'. destruct (Nat.eqb_spec b base) as [-> | N].
  - destruct (met (labelled base sec m r) base) as [x|] eqn:X; [|discriminate]. cbn in M'. injection M' as <-. cbn in I.
    destruct I as [<- | I]. { cbn in E. lia. } exists m, s. auto.
  - apply (rate_register (firstn 254 (m_name m ++ text "_per_secs"%string))).
    apply (rate_shape _ _ _ _ (labelled_shape base sec m r)). exists m', s. auto.
Qed.
Lemma value_register_rate base sec r i : (i < length (metrics r))%nat -> value_of (register_rate base sec r) i = value_of r i.
Proof.
  intros L. rewrite register_rate_eq. destruct (met r base) as [m|] eqn:M; auto.
  rewrite value_vals, vals_on by reflexivity. rewrite <- value_vals, (value_shape _ _ _ (labelled_shape base sec m r)).
  apply value_register; auto.
Qed.
Lemma length_do c r : (length (metrics r) <= length (metrics (do_call c r)))%nat.
Proof.
  assert (U : forall i now r, length (metrics (update_rates i now r)) = length (metrics r)).
  { intros i now r0. pose proof (frame_update i now r0) as F. unfold frame_of in F. congruence. }
  destruct c; cbn [do_call].
  - unfold register_metric. cbn. rewrite app_length. lia.
  - rewrite register_rate_eq. destruct (met r base); auto. rewrite length_on, (length_shape _ _ (labelled_shape base sec m r)).
    unfold register_metric. cbn. rewrite app_length. lia.
  - rewrite (length_shape _ _ (shape_add i l r)). auto.
  - rewrite (length_shape _ _ (shape_replace i l r)). auto.
  - unfold metric_inc. rewrite U, length_on. auto.
  - unfold metric_set. rewrite U, length_on. auto.
  - unfold metric_get. destruct (has_clock r); auto. destruct (met (update_rates i now r) i); auto. rewrite U. auto.
Qed.
Lemma rate_do c r b i : (i < length (metrics r))%nat -> rate_of (do_call c r) b i -> rate_of r b i.
Proof.
  intros L. destruct c; cbn [do_call].
  - apply rate_register.
  - apply rate_register_rate; auto.
  - apply rate_shape. symmetry. apply shape_add.
  - apply rate_shape. symmetry. apply shape_replace.
  - unfold metric_inc. rewrite rate_update, !rate_targets, targets_on by reflexivity. auto.
  - unfold metric_set. rewrite rate_update, !rate_targets, targets_on by reflexivity. auto.
  - unfold metric_get. destruct (has_clock r); auto. destruct (met (update_rates i0 now r) i0); auto. apply rate_update.
Qed.
Lemma value_untouched c r i : (i < length (metrics r))%nat -> ~ touches r i c -> value_of (do_call c r) i = value_of r i.
Proof.
  intros L N. destruct c; cbn [do_call touches] in *.
  - apply value_register; auto.
  - apply value_register_rate; auto.
  - apply value_shape, shape_add.
  - apply value_shape, shape_replace.
  - unfold metric_inc. rewrite value_update. unfold value_of. rewrite nth_on. destruct (Nat.eqb_spec i i0); [exfalso; apply N; auto | auto].
    rewrite rate_targets, targets_on, <- rate_targets by reflexivity. tauto.
  - unfold metric_set. rewrite value_update. unfold value_of. rewrite nth_on. destruct (Nat.eqb_spec i i0); [exfalso; apply N; auto | auto].
    rewrite rate_targets, targets_on, <- rate_targets by reflexivity. tauto.
  - unfold metric_get. destruct (has_clock r); auto. destruct (met (update_rates i0 now r) i0); auto. apply value_update. auto.
Qed.
Lemma value_inc i x now r v : ~ rate_of r i i -> value_of r i = Some v -> value_of (do_call (Inc i x now) r) i = Some (fadd v x).
Proof.
  intros N V. cbn [do_call]. unfold metric_inc. rewrite value_update.
  - unfold value_of in *. rewrite nth_on, Nat.eqb_refl. destruct (met r i); [|discriminate]. cbn. injection V as ->. auto.
  - rewrite rate_targets, targets_on, <- rate_targets by reflexivity. auto.
Qed.
Lemma value_set i x now r v : ~ rate_of r i i -> value_of r i = Some v -> value_of (do_call (Set_ i x now) r) i = Some x.
Proof.
  intros N V. cbn [do_call]. unfold metric_set. rewrite value_update.
  - unfold value_of in *. rewrite nth_on, Nat.eqb_refl. destruct (met r i); [|discriminate]. auto.
  - rewrite rate_targets, targets_on, <- rate_targets by reflexivity. auto.
Qed.
Lemma plain_do c r i : plain r i -> plain (do_call c r) i.
Proof.
  intros [L N]. split. pose proof (length_do c r). lia. intros b R. apply (N b). eapply rate_do; eauto.
Qed.
Lemma do_calls_app p q r : do_calls (p ++ q) r = do_calls q (do_calls p r).
Proof. apply fold_left_app. Qed.

(** *** Counters *)
Lemma counter_step c r i n : plain r i -> 0 <= n <= 16777216 -> value_of r i = Some (whole n) ->
  (exists n', 0 <= n' <= 16777216 /\ expected i (whole n) [c] = whole n') ->
  value_of (do_call c r) i = Some (expected i (whole n) [c]).
Proof.
  intros [L N] B V [n' [B' E]].
  assert (Q : ~ touches r i c -> value_of (do_call c r) i = Some (whole n)) by (intros; rewrite value_untouched; auto).
  destruct c; cbn [expected] in *; try (apply Q; intros T; first [exact T | exact (N _ T)]).
  - destruct (Nat.eqb_spec i0 i) as [-> | Ne].
    + rewrite (value_inc _ _ _ _ (whole n)); auto. unfold fadd. rewrite E. f_equal. apply fl_exact, whole_float. auto.
    + apply Q. intros [A | A]; [auto | exact (N _ A)].
  - destruct (Nat.eqb_spec i0 i) as [-> | Ne].
    + rewrite (value_set _ _ _ _ (whole n)); auto.
    + apply Q. intros [A | A]; [auto | exact (N _ A)].
Qed.
Lemma expected_app i p : forall q v, expected i v (p ++ q) = expected i (expected i v p) q.
Proof. induction p as [|c p IH]; intros q v; cbn; auto. destruct c; auto. Qed.
Lemma counter_run cs : forall r i n, plain r i -> value_of r i = Some (whole n) -> moderate i (whole n) cs ->
  value_of (do_calls cs r) i = Some (expected i (whole n) cs) /\ plain (do_calls cs r) i.
Proof.
  induction cs as [|c cs IH] using rev_ind; intros r i n P V M. { auto. }
  assert (M' : moderate i (whole n) cs).
  { intros p q E. apply (M p (q ++ [c])). rewrite E, app_assoc. auto. }
  destruct (IH r i n P V M') as [V1 P1].
  rewrite do_calls_app, expected_app. cbn [do_calls fold_left].
  destruct (M cs [c] eq_refl) as [n1 [B1 E1]]. destruct (M (cs ++ [c]) [] ltac:(rewrite app_nil_r; auto)) as [n2 [B2 E2]].
  rewrite expected_app in E2. rewrite E1 in *. split. 2: apply plain_do; auto.
  apply counter_step; eauto.
Qed.
Lemma clock_do c r : has_clock (do_call c r) = has_clock r.
Proof.
  assert (U : forall i now r, has_clock (update_rates i now r) = has_clock r).
  { intros i now r0. pose proof (frame_update i now r0) as F. unfold frame_of in F. congruence. }
  destruct c; cbn [do_call]; auto.
  - rewrite register_rate_eq. destruct (met r base); auto. rewrite clock_on. pose proof (labelled_shape base sec m r) as S0.
    unfold shape in S0. cbn in S0. congruence.
  - pose proof (shape_add i l r) as S0. unfold shape in S0. congruence.
  - pose proof (shape_replace i l r) as S0. unfold shape in S0. congruence.
  - unfold metric_inc. rewrite U. auto.
  - unfold metric_set. rewrite U. auto.
  - unfold metric_get. destruct (has_clock r) eqn:C; auto. destruct (met (update_rates i now r) i); auto. rewrite U. auto.
Qed.
Lemma clock_calls cs r : has_clock (do_calls cs r) = has_clock r.
Proof. apply (fold_keep has_clock). intros. apply clock_do. Qed.
Lemma get_value i now r v : has_clock r = true -> plain r i -> value_of r i = Some v -> exists r', metric_get i now r = Ok (v, r').
Proof.
  intros C [L N] V. unfold metric_get. rewrite C. pose proof (value_update i i now r (N i)) as E. rewrite V in E.
  unfold value_of in E. destruct (met (update_rates i now r) i); [|discriminate]. injection E as ->. eauto.
Qed.

Lemma adds_run cs : forall r i v, plain r i -> is_float v -> value_of r i = Some v -> Forall (only_adds i) cs ->
  exists w, value_of (do_calls cs r) i = Some w /\ v <= w /\ is_float w.
Proof.
  induction cs as [|c cs IH]; intros r i v P F V A. { exists v. split; [auto | split; [lia | auto]]. }
  inversion A as [|? ? A1 A2]; subst. cbn [do_calls fold_left].
  assert (X : exists w, value_of (do_call c r) i = Some w /\ v <= w /\ is_float w).
  { destruct P as [L N].
    assert (Q : ~ touches r i c -> exists w, value_of (do_call c r) i = Some w /\ v <= w /\ is_float w).
    { intros T. exists v. rewrite value_untouched; auto. split; [auto | split; [lia | auto]]. }
    destruct c; try (apply Q; intros T; first [exact T | exact (N _ T) | destruct T as [T | T]; [exact (A1 T) | exact (N _ T)]]).
    destruct (Nat.eq_dec i0 i) as [-> | Ne].
    - exists (fadd v x). rewrite (value_inc _ _ _ _ v); auto. cbn in A1. pose proof (fadd_up v x F (A1 eq_refl)). tauto.
    - apply Q. intros [B | B]; [auto | exact (N _ B)]. }
  destruct X as [w [V1 [L1 F1]]]. destruct (IH (do_call c r) i w) as [w' [V2 [L2 F2]]]; auto. apply plain_do; auto.
  exists w'. repeat split; auto. lia.
Qed.
Lemma stuck : fadd (whole 16777216) (whole 1) = whole 16777216.
Proof. vm_compute. reflexivity. Qed.

(** *** Rates *)
Lemma stale_run cs : forall r b i, (i < length (metrics r))%nat -> (forall b', rate_of r b' i -> b' = b) -> Forall (away_from b i) cs ->
  value_of (do_calls cs r) i = value_of r i.
Proof.
  induction cs as [|c cs IH]; intros r b i L U A; auto. inversion A as [|? ? A1 A2]; subst. cbn [do_calls fold_left].
  change (value_of (do_calls cs (do_call c r)) i = value_of r i).
  rewrite (IH _ b); auto.
  - apply value_untouched; auto. intros T. destruct c; cbn [touches away_from] in *; auto.
    + destruct T as [T | T]; [tauto | apply U in T; tauto].
    + destruct T as [T | T]; [tauto | apply U in T; tauto].
  - pose proof (length_do c r). lia.
  - intros b' R. apply U. eapply rate_do; eauto.
Qed.
Lemma rate_value r b m s now : has_clock r = true -> met r b = Some m -> m_rates m = [s] -> (r_metric s < length (metrics r))%nat ->
  due now s = true -> value_of (update_rates b now r) (r_metric s) = Some (average (m_value m) now s).
Proof.
  intros C M R L D. rewrite value_vals. unfold update_rates. rewrite M, C. rewrite vals_on by reflexivity.
  rewrite R. cbn [fold_left]. rewrite D. rewrite <- value_vals. unfold value_of. rewrite nth_on, Nat.eqb_refl.
  destruct (met r (r_metric s)) eqn:E. reflexivity. apply nth_error_None in E. lia.
Qed.
Lemma rate_not_due r b m s now : met r b = Some m -> m_rates m = [s] -> due now s = false ->
  forall i, value_of (update_rates b now r) i = value_of r i.
Proof.
  intros M R D i. rewrite !value_vals. unfold update_rates. rewrite M. destruct (has_clock r); auto.
  rewrite vals_on by reflexivity. rewrite R. cbn [fold_left]. rewrite D. auto.
Qed.

Lemma update_at r b m s now : has_clock r = true -> met r b = Some m -> m_rates m = [s] -> r_metric s <> b ->
  met (update_rates b now r) b =
    Some (set_rates [if due now s then mkRate (r_metric s) (r_interval s) now (m_value m) else s] m).
Proof.
  intros C M R N. unfold update_rates. rewrite M, C, nth_on, Nat.eqb_refl, R. cbn [fold_left map].
  destruct (due now s); [rewrite nth_on; destruct (Nat.eqb_spec b (r_metric s)); [congruence|]|]; rewrite M; reflexivity.
Qed.
Lemma update_clock r b now : has_clock (update_rates b now r) = has_clock r /\ length (metrics (update_rates b now r)) = length (metrics r).
Proof. pose proof (frame_update b now r) as F. unfold frame_of in F. injection F as _ C L. auto. Qed.
Lemma get_update r b m s now : has_clock r = true -> met r b = Some m -> m_rates m = [s] -> r_metric s <> b ->
  do_call (Get b now) r = update_rates b now r.
Proof. intros C M R N. cbn [do_call]. unfold metric_get. rewrite C. rewrite (update_at r b m s now C M R N). reflexivity. Qed.

(** ** The text *)
Definition total (l : list chars) : Z := fold_right (fun s n => Z.of_nat (length s) + n) 0 l.
(** sum of the positions reached after each piece *)
Fixpoint psum (p : Z) (l : list chars) : Z :=
  match l with [] => 0 | s :: l => (p + Z.of_nat (length s)) + psum (p + Z.of_nat (length s)) l end.
Lemma total_app a b : total (a ++ b) = total a + total b.
Proof. induction a; cbn; auto. fold (total (a0 ++ b)). fold (total a0). lia. Qed.
Lemma total_nonneg l : 0 <= total l.
Proof. induction l; cbn; auto. lia. fold (total l). lia. Qed.
Lemma psum_app a : forall p b, psum p (a ++ b) = psum p a + psum (p + total a) b.
Proof.
  induction a as [|s a IH]; intros p b; cbn [app psum]. { cbn. rewrite Z.add_0_r. auto. }
  rewrite IH. cbn [total fold_right]. fold (total a). replace (p + (Z.of_nat (length s) + total a)) with (p + Z.of_nat (length s) + total a) by lia.
  lia.
Qed.
Lemma psum_nonneg l : forall p, 0 <= p -> 0 <= psum p l.
Proof. induction l as [|s l IH]; intros p P; cbn [psum]. lia. specialize (IH (p + Z.of_nat (length s)) ltac:(lia)). lia. Qed.
Lemma psum_mono l : forall p q, p <= q -> psum p l <= psum q l.
Proof.
  induction l as [|s l IH]; intros p q P; cbn [psum]. lia.
  specialize (IH (p + Z.of_nat (length s)) (q + Z.of_nat (length s)) ltac:(lia)). lia.
Qed.
Lemma psum_upper l : forall p, 0 <= p -> psum p l <= Z.of_nat (length l) * (p + total l).
Proof.
  induction l as [|s l IH]; intros p P; cbn [psum length total fold_right]. lia. fold (total l).
  specialize (IH (p + Z.of_nat (length s)) ltac:(lia)). pose proof (total_nonneg l).
  rewrite Nat2Z.inj_succ. replace (p + (Z.of_nat (length s) + total l)) with (p + Z.of_nat (length s) + total l) by lia.
  set (x := p + Z.of_nat (length s)) in *. nia.
Qed.
Lemma count_total l : Forall (fun s => s <> []) l -> Z.of_nat (length l) <= total l.
Proof.
  induction 1 as [|s l N F IH]; cbn [length total fold_right]. lia. fold (total l).
  destruct s; [congruence|]. cbn [length]. lia.
Qed.

(** *** Numbers *)
Lemma length_digits n : forall x, length (digits n x) = n.
Proof. induction n; intros x; cbn; auto. rewrite app_length, IHn. cbn. lia. Qed.
Lemma length_unsigned f : forall n x, (1 <= n)%nat -> 0 <= x < 10 ^ Z.of_nat n -> (length (unsigned f x) <= n)%nat.
Proof.
  induction f as [|f IH]; intros n x N X; cbn [unsigned]. { cbn. lia. }
  rewrite app_length. cbn [length]. destruct (Z.ltb_spec x 10) as [L | L]. { cbn. lia. }
  destruct n as [|[|n]]. lia. { change (10 ^ Z.of_nat 1) with 10 in X. lia. }
  assert (S0 : (length (unsigned f (x / 10)) <= S n)%nat).
  { apply IH. lia. split. apply Z.div_pos; lia. apply Z.div_lt_upper_bound. lia.
    replace (10 * 10 ^ Z.of_nat (S n)) with (10 ^ Z.of_nat (S (S n))). lia.
    rewrite <- Z.pow_succ_r by lia. f_equal. lia. }
  lia.
Qed.
Lemma unsigned_some f x : (1 <= length (unsigned (S f) x))%nat.
Proof. cbn [unsigned]. rewrite app_length. cbn [length]. lia. Qed.
Lemma show_low v : (8 <= length (show v))%nat.
Proof.
  unfold show. rewrite !app_length, length_digits. pose proof (unsigned_some 59 (round_even (Z.abs v * 1000000) one / 1000000)).
  cbn [length]. lia.
Qed.
Lemma show_high v : 0 <= v < whole 9999999999999 -> (length (show v) <= 20)%nat.
Proof.
  intros V. unfold show. destruct (Z.ltb_spec v 0); [lia|]. rewrite Z.abs_eq by lia.
  assert (O1 : 0 < one) by (unfold one; lia).
  assert (R : 0 <= round_even (v * 1000000) one <= 9999999999999 * 1000000).
  { pose proof (re_mono (v * 1000000) (9999999999999 * 1000000 * one) one O1 ltac:(unfold whole, one in *; lia)) as A.
    rewrite re_exact in A by auto.
    pose proof (re_mono (0 * one) (v * 1000000) one O1 ltac:(lia)) as B. rewrite re_exact in B by auto. lia. }
  rewrite !app_length, length_digits. set (x := round_even (v * 1000000) one) in *. clearbody x.
  assert (U : (length (unsigned 60 (x / 1000000)) <= 13)%nat).
  { apply length_unsigned. lia. change (10 ^ Z.of_nat 13) with 10000000000000. split. apply Z.div_pos; lia.
    apply Z.div_lt_upper_bound; lia. }
  cbn [length]. lia.
Qed.
Lemma time_high t : 0 <= t < 10000000000000 -> (length (unsigned 20 t) <= 13)%nat.
Proof. intros T. apply length_unsigned. lia. change (10 ^ Z.of_nat 13) with 10000000000000. auto. Qed.

(** *** One metric *)
Definition block (m : metric) : list chars :=
  (if m_labels m then [] else [[123]]) ++ label_pieces (m_labels m) ++ (if m_labels m then [] else [[125]]).
Definition stamp (m : metric) : list chars := if m_time m =? 0 then [] else [32 :: unsigned 20 (m_time m)].
Lemma pieces_eq m : pieces m = [m_name m] ++ block m ++ [32 :: show (m_value m)] ++ stamp m ++ [[10]].
Proof. unfold pieces, block, stamp. rewrite <- !app_assoc. reflexivity. Qed.
Lemma label_pieces_total ls : total (label_pieces ls) = labels_size ls.
Proof.
  induction ls as [|l ls IH]; auto. cbn [label_pieces labels_size total fold_right]. fold (total ((if ls then [] else [[44]]) ++ label_pieces ls)).
  rewrite total_app, IH. rewrite !app_length. cbn [length]. destruct ls; cbn [total fold_right length]; lia.
Qed.
Lemma block_total m : total (block m) = (if m_labels m then 0 else 2) + labels_size (m_labels m).
Proof.
  unfold block. rewrite !total_app, label_pieces_total. destruct (m_labels m); cbn [total fold_right length]; lia.
Qed.
Lemma labels_size_low ls : 0 <= labels_size ls.
Proof. rewrite <- label_pieces_total. apply total_nonneg. Qed.
Lemma labels_size_high ls : labels_size ls <= label_lengths ls.
Proof.
  induction ls as [|l ls IH]. cbn. lia. cbn [labels_size label_lengths fold_right]. fold (label_lengths ls). unfold label_length.
  destruct ls; lia.
Qed.
Lemma metric_psum m p : 0 <= p -> (2 <= length (m_name m))%nat -> metric_size m + 1 <= psum p (pieces m).
Proof.
  intros P N. pose proof (show_low (m_value m)) as W. pose proof (unsigned_some 19 (m_time m)) as T.
  transitivity (psum 0 (pieces m)). 2: apply psum_mono; auto.
  rewrite pieces_eq, !psum_app, block_total. cbn [psum total fold_right length].
  pose proof (psum_nonneg (block m) (0 + (Z.of_nat (length (m_name m)) + 0)) ltac:(lia)) as B.
  pose proof (labels_size_low (m_labels m)) as L. unfold metric_size, stamp.
  set (lb := labels_size (m_labels m)) in *. set (c := if m_labels m then 0 else 2).
  assert (C : 0 <= c) by (unfold c; destruct (m_labels m); lia). clearbody lb c. set (x := psum _ (block m)) in *. clearbody x.
  destruct (m_time m =? 0); cbn [psum total fold_right length]; lia.
Qed.
Lemma pieces_total_high m : usual m -> total (pieces m) <= Z.of_nat (length (m_name m)) + 40 + label_lengths (m_labels m) /\
  total (pieces m) <= metric_size m.
Proof.
  intros [V T]. pose proof (show_high _ V) as W. pose proof (time_high _ T) as T1.
  rewrite pieces_eq, !total_app, block_total. pose proof (labels_size_high (m_labels m)). unfold metric_size, stamp.
  destruct (m_labels m), (m_time m =? 0); cbn [total fold_right length labels_size] in *; lia.
Qed.
Lemma metric_size_high m : 0 <= metric_size m <= Z.of_nat (length (m_name m)) + 40 + label_lengths (m_labels m).
Proof.
  pose proof (labels_size_high (m_labels m)). pose proof (labels_size_low (m_labels m)). unfold metric_size.
  destruct (m_labels m), (m_time m =? 0); lia.
Qed.
Lemma pieces_nonempty m : (1 <= length (m_name m))%nat -> Forall (fun s => s <> []) (pieces m).
Proof.
  intros N. assert (L : forall ls, Forall (fun s : chars => s <> []) (label_pieces ls)).
  { induction ls as [|l ls IH]; cbn; auto. constructor. destruct (l_name l); discriminate.
    apply Forall_app. split; auto. destruct ls; auto. constructor; auto. discriminate. }
  rewrite pieces_eq. constructor. destruct (m_name m); [cbn in N; lia | discriminate].
  apply Forall_app. split.
  - unfold block. apply Forall_app. split. destruct (m_labels m); repeat constructor; discriminate.
    apply Forall_app. split; auto. destruct (m_labels m); repeat constructor; discriminate.
  - constructor. discriminate. unfold stamp. destruct (m_time m =? 0); repeat constructor; discriminate.
Qed.

(** *** All metrics *)
Definition sizes (ms : list metric) : Z := fold_right (fun m n => metric_size m + n) 0 ms.
Lemma sizes_app a b : sizes (a ++ b) = sizes a + sizes b.
Proof. induction a; cbn; auto. fold (sizes (a0 ++ b)). fold (sizes a0). lia. Qed.
Lemma sizes_rev ms : sizes (rev ms) = sizes ms.
Proof. induction ms; cbn [rev]; auto. rewrite sizes_app, IHms. cbn. fold (sizes ms). lia. Qed.
Lemma psum_metrics ms : forall p, 0 <= p -> (forall m, In m ms -> (2 <= length (m_name m))%nat) ->
  sizes ms + Z.of_nat (length ms) <= psum p (flat_map pieces ms).
Proof.
  induction ms as [|m ms IH]; intros p P N; cbn [flat_map sizes fold_right length]. { cbn. lia. }
  rewrite psum_app. fold (sizes ms). pose proof (metric_psum m p P (N m (or_introl eq_refl))).
  pose proof (total_nonneg (pieces m)). specialize (IH (p + total (pieces m)) ltac:(lia) ltac:(intros; apply N; right; auto)). lia.
Qed.
Definition amount (ms : list metric) : Z :=
  fold_right (fun m n => Z.of_nat (length (m_name m)) + 40 + label_lengths (m_labels m) + n) 0 ms.
Lemma amount_app a b : amount (a ++ b) = amount a + amount b.
Proof. induction a; cbn; auto. fold (amount (a0 ++ b)). fold (amount a0). lia. Qed.
Lemma amount_rev ms : amount (rev ms) = amount ms.
Proof. induction ms; cbn [rev]; auto. rewrite amount_app, IHms. cbn. fold (amount ms). lia. Qed.
Lemma total_metrics ms : (forall m, In m ms -> usual m) -> total (flat_map pieces ms) <= amount ms /\ total (flat_map pieces ms) <= sizes ms.
Proof.
  induction ms as [|m ms IH]; intros U; cbn [flat_map amount sizes fold_right]. { cbn. lia. }
  rewrite total_app. fold (amount ms). fold (sizes ms). destruct (pieces_total_high m (U m (or_introl eq_refl))).
  specialize (IH ltac:(intros; apply U; right; auto)). lia.
Qed.
Lemma sizes_amount ms : 0 <= sizes ms <= amount ms.
Proof.
  induction ms as [|m ms IH]; cbn [amount sizes fold_right]. { lia. } fold (amount ms). fold (sizes ms).
  pose proof (metric_size_high m). lia.
Qed.
Lemma all_nonempty ms : (forall m, In m ms -> (2 <= length (m_name m))%nat) -> Forall (fun s => s <> []) (flat_map pieces ms).
Proof.
  induction ms as [|m ms IH]; intros N; cbn [flat_map]. constructor. apply Forall_app. split.
  apply pieces_nonempty. specialize (N m (or_introl eq_refl)). lia. apply IH. intros. apply N. right. auto.
Qed.

(** *** Writing *)
Lemma put_len s o o' : 0 <= pos o -> 0 <= size o -> put s o = Ok o' ->
  length (buf o') = length (buf o) /\ pos o' = pos o + Z.of_nat (length s) /\
  size o' = (size o - (pos o + Z.of_nat (length s))) mod 2 ^ 32.
Proof.
  intros P S0. unfold put. destruct (Z.eqb_spec (size o) 0) as [E | E].
  - intros H. injection H as <-. cbn [buf pos size]. auto.
  - destruct (Z.ltb_spec (pos o + Z.min (Z.of_nat (length s)) (size o - 1)) (Z.of_nat (length (buf o)))) as [L | L]; [|discriminate].
    intros H. injection H as <-. cbn [buf pos size]. split; auto.
    rewrite !app_length. cbn [length]. rewrite skipn_length, map_length, !firstn_length. lia.
Qed.
Lemma puts_end l : forall o o', 0 <= pos o -> 0 <= size o < 2 ^ 32 -> puts l o = Ok o' ->
  length (buf o') = length (buf o) /\ size o' = (size o - psum (pos o) l) mod 2 ^ 32.
Proof.
  induction l as [|s l IH]; intros o o' P S0 H; cbn [puts psum] in *.
  - injection H as <-. rewrite Z.sub_0_r, Z.mod_small by auto. auto.
  - destruct (put s o) as [o1| |] eqn:E; cbn [obind] in H; try discriminate.
    destruct (put_len s o o1 P ltac:(lia) E) as [L1 [P1 S1]].
    destruct (IH o1 o') as [L2 S2]; auto. lia. rewrite S1. apply Z.mod_pos_bound. lia.
    rewrite L2, L1. split; auto. rewrite S2, S1, P1, Zminus_mod_idemp_l. f_equal. lia.
Qed.
Lemma puts_no_abort l : forall o, puts l o <> Abort.
Proof.
  induction l as [|s l IH]; intros o; cbn. discriminate. destruct (put s o) as [o1| |] eqn:E; cbn; auto. discriminate || idtac.
  exfalso. unfold put in E. destruct (size o =? 0); try discriminate. destruct (_ <? _) in E; discriminate. discriminate.
Qed.

Lemma export_bad r : metrics r <> [] -> (forall m, In m (metrics r) -> (2 <= length (m_name m))%nat /\ usual m) ->
  lengths r <= 65535 -> format r = UB.
Proof.
  intros NE H Len. unfold format. destruct (forallb readable (metrics r)); auto.
  destruct (puts (all_pieces r) _) as [o| |] eqn:E; cbn [obind]; auto. 2: { exfalso. eapply puts_no_abort; eauto. }
  change (lengths r) with (amount (metrics r)) in Len.
  assert (Hr : forall m, In m (rev (metrics r)) -> (2 <= length (m_name m))%nat /\ usual m) by (intros m I; apply H, in_rev; auto).
  pose proof (sizes_amount (metrics r)) as SA.
  assert (Z0 : buffer_size r = 1 + sizes (metrics r)).
  { unfold buffer_size. fold (sizes (metrics r)). apply Z.mod_small. lia. }
  rewrite Z0 in E. set (n := 1 + sizes (metrics r)) in *.
  destruct (puts_end (all_pieces r) _ o (Z.le_refl 0 : 0 <= pos (mkOut (repeat None (Z.to_nat n)) 0 n)) ltac:(cbn [size]; lia) E) as [L1 S1]. cbn [buf pos size] in L1, S1. rewrite repeat_length in L1.
  pose proof (psum_metrics (rev (metrics r)) 0 (Z.le_refl 0) ltac:(intros m I; apply Hr; auto)) as Low.
  rewrite sizes_rev, rev_length in Low. fold (all_pieces r) in Low.
  destruct (total_metrics (rev (metrics r)) ltac:(intros m I; apply Hr; auto)) as [T1 _]. rewrite amount_rev in T1. fold (all_pieces r) in T1.
  pose proof (count_total (all_pieces r) (all_nonempty (rev (metrics r)) (fun m I => proj1 (Hr m I)))) as CT.
  pose proof (psum_upper (all_pieces r) 0 (Z.le_refl 0)) as Up. rewrite Z.add_0_l in Up.
  assert (Up2 : psum 0 (all_pieces r) <= 65535 * 65535).
  { pose proof (total_nonneg (all_pieces r)). set (t := total (all_pieces r)) in *. set (c := Z.of_nat (length (all_pieces r))) in *.
    assert (0 <= c) by (unfold c; lia). clear - Up CT T1 Len H0 H1. nia. }
  set (Su := psum 0 (all_pieces r)) in *.
  assert (NN : (1 <= length (metrics r))%nat) by (destruct (metrics r); [congruence | cbn; lia]).
  unfold finish. rewrite L1, S1.
  rewrite Zminus_mod_idemp_l. rewrite Z2Nat.id by lia.
  assert (X : (n - Su - 1) mod 2 ^ 32 = n - Su - 1 + 2 ^ 32).
  { symmetry. apply Z.mod_unique with (-1). left. lia. lia. }
  rewrite X. destruct (Z.ltb_spec (n - Su - 1 + 2 ^ 32) n); auto. lia.
Qed.

(** *** The text itself *)
Lemma labels_text_pieces ls : List.concat (label_pieces ls) = labels_text ls.
Proof.
  induction ls as [|l ls IH]; auto. cbn [label_pieces List.concat]. rewrite concat_app, IH. destruct ls as [|l2 ls].
  - cbn. rewrite app_nil_r. reflexivity.
  - cbn [List.concat labels_text]. rewrite <- !app_assoc. reflexivity.
Qed.
Lemma line_pieces m : List.concat (pieces m) = line show (unsigned 20) m.
Proof.
  rewrite pieces_eq. unfold line, block, stamp. rewrite !concat_app, labels_text_pieces.
  change (List.concat [m_name m]) with (m_name m ++ []). rewrite app_nil_r. f_equal.
  destruct (m_labels m) as [|l ls]; destruct (m_time m =? 0); cbn [List.concat app]; rewrite ?app_nil_r; auto;
    cbn; rewrite ?app_nil_r; auto.
  all: rewrite <- ?app_assoc; cbn [app]; auto.
Qed.
Lemma document_pieces r : List.concat (all_pieces r) = document show (unsigned 20) r.
Proof.
  unfold all_pieces, document. induction (rev (metrics r)) as [|m ms IH]; auto.
  cbn [flat_map map List.concat]. rewrite concat_app, line_pieces, IH. auto.
Qed.
Lemma total_concat l : total l = Z.of_nat (length (List.concat l)).
Proof. induction l; cbn; auto. fold (total l). rewrite app_length. lia. Qed.
Lemma room r : (forall m, In m (metrics r) -> usual m) -> lengths r < 4294967295 ->
  Z.of_nat (length (document show (unsigned 20) r)) + 1 <= buffer_size r.
Proof.
  intros U L. rewrite <- document_pieces, <- total_concat. unfold all_pieces.
  destruct (total_metrics (rev (metrics r)) ltac:(intros m I; apply U, in_rev; auto)) as [_ T]. rewrite sizes_rev in T.
  pose proof (sizes_amount (metrics r)) as SA. change (lengths r) with (amount (metrics r)) in L.
  unfold buffer_size. fold (sizes (metrics r)). rewrite Z.mod_small by lia. lia.
Qed.

(** ** Labels *)
Lemma same_name_eq a b : same_name a b = true <-> l_name a = l_name b.
Proof. unfold same_name. destruct (list_eq_dec Z.eq_dec (l_name a) (l_name b)); split; congruence. Qed.
Definition named (n : chars) (l : label) : bool := if list_eq_dec Z.eq_dec (l_name l) n then true else false.
Lemma label_values_eq n m : label_values n m = map l_value (filter (named n) (m_labels m)). Proof. reflexivity. Qed.
Lemma filter_map_keep {A} (p : A -> bool) (f : A -> A) l : (forall x, p (f x) = p x) -> filter p (map f l) = map f (filter p l).
Proof. intros H. induction l; cbn; auto. rewrite H. destruct (p a); cbn; rewrite IHl; auto. Qed.
Lemma replace_own l m : label_values (l_name l) (replace1 l m) = repeat (field (l_value l)) (length (label_values (l_name l) m)).
Proof.
  rewrite !label_values_eq. unfold replace1. cbn [m_labels set_labels]. rewrite filter_map_keep.
  - rewrite map_length. induction (m_labels m) as [|x ls IH]; auto. cbn [filter]. destruct (named (l_name l) x) eqn:N; auto.
    cbn [map length repeat]. rewrite IH. f_equal.
    assert (E : same_name l x = true) by (apply same_name_eq; unfold named in N; destruct (list_eq_dec _ _ _); congruence).
    rewrite E. reflexivity.
  - intros x. destruct (same_name l x); reflexivity.
Qed.
Lemma replace_other n l m : n <> l_name l -> label_values n (replace1 l m) = label_values n m.
Proof.
  intros N. rewrite !label_values_eq. unfold replace1. cbn [m_labels set_labels]. rewrite filter_map_keep.
  2: intros x; destruct (same_name l x); reflexivity.
  induction (m_labels m) as [|x ls IH]; auto. cbn [filter]. destruct (named n x) eqn:E; auto. cbn [map]. rewrite IH. f_equal.
  destruct (same_name l x) eqn:S0; auto. exfalso. apply same_name_eq in S0. unfold named in E.
  destruct (list_eq_dec _ _ _); congruence.
Qed.
Lemma add_own l m : label_values (l_name l) (add1 l m) = l_value l :: label_values (l_name l) m.
Proof.
  rewrite !label_values_eq. cbn [add1 set_labels m_labels filter]. unfold named at 1. destruct (list_eq_dec _ _ _); [reflexivity | congruence].
Qed.
Lemma add_other n l m : n <> l_name l -> label_values n (add1 l m) = label_values n m.
Proof.
  intros N. rewrite !label_values_eq. cbn [add1 set_labels m_labels filter]. unfold named at 1. destruct (list_eq_dec _ _ _); congruence.
Qed.
Lemma has_label_values l m : has_label l m = true <-> label_values (l_name l) m <> [].
Proof.
  rewrite label_values_eq. unfold has_label. induction (m_labels m) as [|x ls IH]; cbn [existsb filter].
  - split; [discriminate | cbn; congruence].
  - destruct (same_name l x) eqn:E.
    + apply same_name_eq in E. unfold named at 1. destruct (list_eq_dec _ _ _); [|congruence]. cbn. split; [discriminate | auto].
    + assert (N : named (l_name l) x = false).
      { unfold named. destruct (list_eq_dec _ _ _); auto. assert (same_name l x = true) by (apply same_name_eq; auto). congruence. }
      rewrite N. cbn. auto.
Qed.
Lemma replace_at i l r m : met r i = Some m -> ~ rate_of r i i ->
  met (replace_label i l r) i = Some (if has_label l m then replace1 l m else add1 l m).
Proof.
  intros M N. unfold replace_label. rewrite M.
  assert (O : forall f s, In s (m_rates m) -> forall b : registry, met (on (r_metric s) f b) i = met b i).
  { intros f s I b. rewrite nth_on. destruct (Nat.eqb_spec i (r_metric s)); auto. exfalso. apply N. exists m, s. auto. }
  destruct (has_label l m).
  - rewrite (fold_keep (fun r => met r i)) by (intros; apply O; auto). rewrite nth_on, Nat.eqb_refl, M. auto.
  - unfold add_label. rewrite M. rewrite (fold_keep (fun r => met r i)) by (intros; apply O; auto). rewrite nth_on, Nat.eqb_refl, M. auto.
Qed.
Lemma replace_elsewhere i l r j : j <> i -> ~ rate_of r i j -> met (replace_label i l r) j = met r j.
Proof.
  intros D N. unfold replace_label. destruct (met r i) as [m|] eqn:M; auto.
  assert (O : forall f s, In s (m_rates m) -> forall b : registry, met (on (r_metric s) f b) j = met b j).
  { intros f s I b. rewrite nth_on. destruct (Nat.eqb_spec j (r_metric s)); auto. exfalso. apply N. exists m, s. auto. }
  apply Nat.eqb_neq in D. destruct (has_label l m).
  - rewrite (fold_keep (fun r => met r j)) by (intros; apply O; auto). rewrite nth_on, D. auto.
  - unfold add_label. rewrite M. rewrite (fold_keep (fun r => met r j)) by (intros; apply O; auto). rewrite nth_on, D. auto.
Qed.

(** ** Names *)
Definition names (r : registry) : list chars := map m_name (metrics r).
Lemma names_on i f r : (forall m, m_name (f m) = m_name m) -> names (on i f r) = names r.
Proof. intros H. apply map_change. auto. Qed.
Lemma names_add i l r : names (add_label i l r) = names r.
Proof.
  unfold add_label. destruct (met r i); auto. rewrite (fold_keep names) by (intros; apply names_on; reflexivity).
  apply names_on. reflexivity.
Qed.
Lemma names_replace i l r : names (replace_label i l r) = names r.
Proof.
  unfold replace_label. destruct (met r i); auto. destruct (has_label l m). 2: apply names_add.
  rewrite (fold_keep names). apply names_on. reflexivity.
  intros b x _. apply names_on. intros y. unfold replace_or_add. destruct (has_label l y); reflexivity.
Qed.
Lemma names_update i now r : names (update_rates i now r) = names r.
Proof.
  unfold update_rates. destruct (met r i); auto. destruct (has_clock r); auto. rewrite names_on by reflexivity.
  rewrite (fold_keep names); auto. intros b x _. destruct (due now x); auto. apply names_on. reflexivity.
Qed.
Lemma names_do c r : long_name c -> Forall (fun n => (2 <= length n)%nat) (names r) -> Forall (fun n => (2 <= length n)%nat) (names (do_call c r)).
Proof.
  intros C F. destruct c; cbn [do_call].
  - unfold names, register_metric. cbn [metrics]. rewrite map_app. apply Forall_app. split; auto. constructor; auto. cbn [m_name].
    unfold field. rewrite firstn_length. cbn in C. lia.
  - rewrite register_rate_eq. destruct (met r base) as [b|] eqn:B; auto. rewrite names_on by reflexivity. unfold labelled.
    rewrite (fold_keep names) by (intros; apply names_add). rewrite names_add.
    unfold names, register_metric. cbn [metrics]. rewrite map_app. apply Forall_app. split; auto. constructor; auto. cbn [m_name].
    assert (L : (2 <= length (m_name b))%nat).
    { rewrite Forall_forall in F. apply F. unfold names. apply in_map. eapply nth_error_In; eauto. }
    unfold field. rewrite !firstn_length, app_length. lia.
  - rewrite names_add. auto.
  - rewrite names_replace. auto.
  - unfold metric_inc. rewrite names_update, names_on by reflexivity. auto.
  - unfold metric_set. rewrite names_update, names_on by reflexivity. auto.
  - unfold metric_get. destruct (has_clock r); auto. destruct (met (update_rates i now r) i); auto. rewrite names_update. auto.
Qed.
Lemma names_calls cs : forall r, Forall long_name cs -> Forall (fun n => (2 <= length n)%nat) (names r) ->
  Forall (fun n => (2 <= length n)%nat) (names (do_calls cs r)).
Proof.
  induction cs as [|c cs IH]; intros r C F; auto. inversion C; subst. cbn [do_calls fold_left].
  apply IH; auto. apply names_do; auto.
Qed.
Lemma node_long version node ident inst now :
  Forall long_name (node_calls ++ describe version ++ [Set_ 0 0 now] ++ node_labels node ident inst).
Proof.
  apply Forall_app. split.
  { unfold node_calls. cbn [map app]. repeat (constructor; [first [exact I | vm_compute; lia] |]). constructor. }
  apply Forall_app. split. { unfold describe. repeat (constructor; [exact I|]). constructor. }
  apply Forall_app. split. { constructor; [exact I | constructor]. }
  unfold node_labels. cbn [seq flat_map app]. repeat (constructor; [exact I|]). constructor.
Qed.
Lemma length_calls cs : forall r, (length (metrics r) <= length (metrics (do_calls cs r)))%nat.
Proof.
  induction cs as [|c cs IH]; intros r; auto. cbn [do_calls fold_left]. pose proof (length_do c r). specialize (IH (do_call c r)).
  unfold do_calls in IH. lia.
Qed.
Lemma node_some version node ident inst now : metrics (node_registry version node ident inst now) <> [].
Proof.
  unfold node_registry. intros E. pose proof (length_calls ((describe version ++ [Set_ 0 0 now] ++ node_labels node ident inst))
    (do_calls node_calls (create_context true))) as L. rewrite <- do_calls_app in L. rewrite E in L. cbn [length] in L.
  assert (X : length (metrics (do_calls node_calls (create_context true))) = 13%nat) by (vm_compute; reflexivity). lia.
Qed.

(** ** Locks *)
Lemma handle_step t n rw : exists rw',
  handle_metrics t (mkLocks (match n with O => None | _ => Some (t, n) end) rw) = Some (mkLocks (Some (t, S n)) rw').
Proof.
  unfold handle_metrics, with_w_lock, format_size, mutex_lock. cbn [w_lock rw_lock].
  destruct n as [|n]; cbn [mutex_unlock w_lock]; rewrite ?Nat.eqb_refl; cbn [mutex_unlock w_lock]; rewrite ?Nat.eqb_refl; eauto.
Qed.
Lemma requests_hold t n : forall k0 rw, exists rw',
  requests t n (mkLocks (match k0 with O => None | _ => Some (t, k0) end) rw) =
  Some (mkLocks (match (k0 + n)%nat with O => None | x => Some (t, x) end) rw').
Proof.
  induction n as [|n IH]; intros k0 rw; cbn [requests].
  - rewrite Nat.add_0_r. exists rw. destruct k0; reflexivity.
  - destruct (handle_step t k0 rw) as [rw1 ->]. destruct (IH (S k0) rw1) as [rw2 E]. rewrite E.
    rewrite <- plus_n_Sm. cbn. eauto.
Qed.

(** ** Labels of rates *)
Definition labelled_with (l : label) (m : metric) : Prop :=
  label_values (l_name l) m <> [] /\ forall v, In v (label_values (l_name l) m) -> v = l_value l.
Lemma replace_or_add_good l m : (length (l_value l) <= 255)%nat -> labelled_with l (replace_or_add l m).
Proof.
  intros L. assert (F : field (l_value l) = l_value l) by (apply firstn_all2; auto).
  unfold replace_or_add, labelled_with. pose proof (has_label_values l m) as HV. destruct (has_label l m) eqn:H.
  - rewrite replace_own, F. assert (NE : label_values (l_name l) m <> []) by (apply HV; auto).
    destruct (label_values (l_name l) m) as [|v vs]; [congruence|]. cbn [List.length repeat]. split; [discriminate|].
    intros x [<- | I]; auto. eapply repeat_spec; eauto.
  - assert (E : label_values (l_name l) m = []).
    { destruct (label_values (l_name l) m); auto. assert (false = true) by (apply HV; discriminate). discriminate. }
    rewrite add_own, E. split; [discriminate|]. intros x [<- | []]; auto.
Qed.
Lemma fold_replace l j ss : (length (l_value l) <= 255)%nat -> forall r m, met r j = Some m ->
  exists m', met (fold_left (fun r s => on (r_metric s) (replace_or_add l) r) ss r) j = Some m' /\
    ((exists s, In s ss /\ r_metric s = j) \/ labelled_with l m -> labelled_with l m').
Proof.
  intros L. induction ss as [|s ss IH]; intros r m M; cbn [fold_left].
  - exists m. split; auto. intros [(s & [] & _)|G]; auto.
  - destruct (Nat.eqb_spec j (r_metric s)) as [E|E].
    + destruct (IH (on (r_metric s) (replace_or_add l) r) (replace_or_add l m)) as (m' & A & B).
      { rewrite nth_on, (proj2 (Nat.eqb_eq _ _) E), M. reflexivity. }
      exists m'. split; auto. intros _. apply B. right. apply replace_or_add_good; auto.
    + destruct (IH (on (r_metric s) (replace_or_add l) r) m) as (m' & A & B).
      { rewrite nth_on, (proj2 (Nat.eqb_neq _ _) E). exact M. }
      exists m'. split; auto. intros [(x & [<- | I] & X)|G]; [congruence | apply B; left; eauto | apply B; right; auto].
Qed.
Lemma replace_rates r i l m j mj : (length (l_value l) <= 255)%nat -> met r i = Some m -> has_label l m = true -> rate_of r i j -> met r j = Some mj ->
  exists mj', met (replace_label i l r) j = Some mj' /\ labelled_with l mj'.
Proof.
  intros L M H (m0 & s & M0 & I & E) J. assert (m0 = m) by (unfold met in *; congruence). subst m0. unfold replace_label. rewrite M, H.
  assert (X : exists x, met (on i (replace1 l) r) j = Some x).
  { rewrite nth_on, J. destruct (Nat.eqb j i); cbn; eauto. }
  destruct X as (x & X). destruct (fold_replace l j (m_rates m) L _ x X) as (m' & A & B). exists m'. split; auto. apply B. left. eauto.
Qed.
