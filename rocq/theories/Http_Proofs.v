(** Proofs about the web server. *)
From Coq Require Import String.
From Verif Require Import Base Data_Model Uuid_Model Uuid_Proofs Http_Model Http_Spec.
Open Scope list_scope.
Open Scope Z_scope.

(** ** Decoding *)
Lemma zero_at_some m z : zero_at m = Some z -> exists T R, m = T ++ 0 :: R /\ length T = z /\ ~ In 0 T.
Proof.
  revert z. induction m as [|c m IH]; intros z H; cbn [zero_at] in H; [discriminate|]. destruct (Z.eqb_spec c 0) as [->|N].
  - injection H as <-. exists [], m. repeat split. intros [].
  - destruct (zero_at m) as [y|] eqn:E; [|discriminate]. injection H as <-. destruct (IH y eq_refl) as (T & R & -> & L & N0).
    exists (c :: T), R. split; [reflexivity|]. split; [cbn; congruence|]. intros [H|H]; [congruence|contradiction].
Qed.
Lemma zero_at_none m : zero_at m = None -> ~ In 0 m.
Proof.
  induction m as [|c m IH]; cbn [zero_at]; [intros _ []|]. destruct (Z.eqb_spec c 0); [discriminate|].
  destruct (zero_at m); [discriminate|]. intros _ [H|H]; [congruence|]. apply IH; [reflexivity|exact H].
Qed.
Lemma zero_at_app T R : ~ In 0 T -> zero_at (T ++ 0 :: R) = Some (length T).
Proof.
  induction T as [|c T IH]; intros N; cbn [app zero_at length]; [reflexivity|]. destruct (Z.eqb_spec c 0) as [->|]; [exfalso; apply N; left; reflexivity|].
  rewrite IH by (intros H; apply N; right; exact H). reflexivity.
Qed.
Lemma zero_at_nozero m : ~ In 0 m -> zero_at m = None.
Proof.
  induction m as [|c m IH]; intros N; cbn [zero_at]; [reflexivity|]. destruct (Z.eqb_spec c 0) as [->|]; [exfalso; apply N; left; reflexivity|].
  rewrite IH by (intros H; apply N; right; exact H). reflexivity.
Qed.
Lemma c_string_app T R : ~ In 0 T -> c_string (T ++ 0 :: R) = Done T.
Proof. intros N. unfold c_string. rewrite zero_at_app by exact N. rewrite firstn_app, Nat.sub_diag, firstn_all. cbn [firstn]. rewrite app_nil_r. reflexivity. Qed.
Lemma hexd_nonzero c : hexd c = true -> c <> 0 /\ c <> 37.
Proof. unfold hexd. rewrite !orb_true_iff, !andb_true_iff, !Z.leb_le. lia. Qed.
Lemma hexd_spec c : hexd c = is_hexb c. Proof. reflexivity. Qed.
Lemma hexv_spec c : hexd c = true -> hexv c = hex_value c.
Proof.
  unfold hexd, hexv, hex_value. rewrite !orb_true_iff, !andb_true_iff, !Z.leb_le. intros H.
  destruct (Z.leb_spec c 57), (Z.leb_spec c 70), (Z.leb_spec 97 c), (Z.leb_spec 65 c); lia.
Qed.

(** what is left behind the moved bytes *)
Lemma tail_left T : forall c2 R, skipn (length T) (c2 :: T ++ 0 :: R) = last (c2 :: T) 0 :: 0 :: R.
Proof.
  induction T as [|t T IH]; intros c2 R; [reflexivity|]. cbn [length skipn app]. rewrite IH. destruct T; reflexivity.
Qed.
Lemma last_in (A : Type) (d : A) l : l <> [] -> In (last l d) l.
Proof. induction l as [|x l IH]; intros H; [contradiction|]. destruct l; [left; reflexivity|]. right. apply IH. discriminate. Qed.

(** one step, seen as a text *)
Lemma step_shape i m r : url_step i m = Done r ->
  r = Go false m \/ (exists P c1 R, m = P ++ 37 :: c1 :: R /\ length P = i /\ c1 = 0 /\ r = Return m) \/
  exists P c1 c2 T R, m = P ++ 37 :: c1 :: c2 :: T ++ 0 :: R /\ length P = i /\ hexd c1 = true /\ hexd c2 = true /\ ~ In 0 T /\
    r = Go true (P ++ 16 * hexv c1 + hexv c2 :: T ++ 0 :: last (c2 :: T) 0 :: 0 :: R).
Proof.
  unfold url_step. intros H. destruct (nth_error m i) as [c|] eqn:E0; [|discriminate]. destruct (nth_error m (i + 1)) as [c1|] eqn:E1; [|discriminate].
  destruct (Z.eqb_spec c 37) as [->|_]; [|left; congruence].
  destruct (nth_error_split m i E0) as (P & Q & -> & LP). rewrite nth_error_app2 in E1 by lia. replace (i + 1 - length P)%nat with 1%nat in E1 by lia.
  destruct Q as [|q Q]; [discriminate|]. cbn [nth_error] in E1. injection E1 as E1. subst q.
  destruct (Z.eqb_spec c1 0) as [Q1|N1]; [right; left; exists P, c1, Q; split; [reflexivity|]; split; [exact LP|]; split; [exact Q1|congruence]|].
  destruct (hexd c1) eqn:H1; [|left; congruence].
  rewrite nth_error_app2 in H by lia. replace (i + 2 - length P)%nat with 2%nat in H by lia. destruct Q as [|c2 Q]; [discriminate|]. cbn [nth_error] in H.
  destruct (hexd c2) eqn:H2; [|left; congruence].
  rewrite skipn_app in H. replace (i + 3 - length P)%nat with 3%nat in H by lia. rewrite skipn_all2 in H by lia. cbn [skipn app] in H.
  destruct (zero_at Q) as [z|] eqn:Z; [|discriminate]. destruct (zero_at_some Q z Z) as (T & R & -> & LT & N0).
  injection H as <-. right. right. exists P, c1, c2, T, R. repeat split; try assumption.
  rewrite firstn_app. replace (i - length P)%nat with 0%nat by lia. rewrite firstn_all2 by lia. cbn [firstn]. rewrite app_nil_r.
  f_equal. f_equal. cbn [app]. f_equal.
  rewrite firstn_app. replace (z + 1 - length T)%nat with 1%nat by lia. rewrite firstn_all2 by lia. cbn [firstn]. rewrite <- app_assoc. f_equal. cbn [app]. f_equal.
  rewrite skipn_app, skipn_all2 by lia. replace (i + z + 2 - length P)%nat with (S (S (length T))) by lia. cbn [app]. change (skipn (S (S (length T))) (37 :: c1 :: c2 :: T ++ 0 :: R)) with (skipn (length T) (c2 :: T ++ 0 :: R)).
  apply tail_left.
Qed.

Definition after (r : step_end) : list Z := match r with Return m => m | Go _ m => m end.
Definition changes (r : step_end) : bool := match r with Return _ => false | Go c _ => c end.
Fixpoint nz (l : list Z) : nat := match l with [] => O | c :: l => (if (c =? 0)%Z then O else 1%nat) + nz l end.
Lemma nz_app a b : nz (a ++ b) = (nz a + nz b)%nat.
Proof. induction a as [|c a IH]; cbn [app nz]; [reflexivity|]. rewrite IH. lia. Qed.
Lemma nz_le l : (nz l <= length l)%nat.
Proof. induction l as [|c l IH]; cbn [nz length]; [lia|]. destruct (c =? 0)%Z; lia. Qed.

Lemma step_measure i m r : url_step i m = Done r -> length (after r) = length m /\ (nz (after r) <= nz m)%nat /\ (changes r = true -> (nz (after r) < nz m)%nat).
Proof.
  intros H. destruct (step_shape i m r H) as [->|[(P & c1 & R & -> & _ & _ & ->)|(P & c1 & c2 & T & R & -> & _ & H1 & H2 & N0 & ->)]]; cbn [after changes].
  - split; [reflexivity|]. split; [lia|discriminate].
  - split; [reflexivity|]. split; [lia|discriminate].
  - destruct (hexd_nonzero c1 H1) as [A1 _]. destruct (hexd_nonzero c2 H2) as [A2 _].
    split; [rewrite !app_length; cbn [length]; rewrite !app_length; cbn [length]; lia|].
    set (v := 16 * hexv c1 + hexv c2). assert (X : (nz (P ++ v :: T ++ 0%Z :: last (c2 :: T) 0%Z :: 0%Z :: R) < nz (P ++ 37%Z :: c1 :: c2 :: T ++ 0%Z :: R))%nat); [|split; [lia|intros _; exact X]].
    rewrite !nz_app. cbn [nz]. rewrite !nz_app. cbn [nz]. change (0 =? 0)%Z with true. change (37 =? 0)%Z with false.
    rewrite (proj2 (Z.eqb_neq c1 0) A1), (proj2 (Z.eqb_neq c2 0) A2).
    destruct (v =? 0)%Z; destruct (last (c2 :: T) 0 =? 0)%Z; lia.
Qed.
Lemma pass_measure n : forall i c m r, url_pass n i c m = Done r ->
  length (after r) = length m /\ (nz (after r) <= nz m)%nat /\ (c = false -> changes r = true -> (nz (after r) < nz m)%nat) .
Proof.
  induction n as [|n IH]; intros i c m r H; cbn [url_pass] in H; [injection H as <-; cbn [after changes]; split; [reflexivity|]; split; [lia|congruence]|].
  destruct (url_step i m) as [s| | |] eqn:E; cbn [rbind] in H; try discriminate H. destruct (step_measure i m s E) as (L & Le & Lt).
  destruct s as [m1|c1 m1]; cbn [after changes] in *.
  - injection H as <-. cbn [after changes]. split; [exact L|]. split; [exact Le|discriminate].
  - destruct (IH (S i) (c || c1) m1 r H) as (L' & Le' & Lt'). split; [congruence|]. split; [lia|]. intros -> C. cbn [orb] in Lt'. destruct c1; [specialize (Lt eq_refl); lia|]. specialize (Lt' eq_refl C). lia.
Qed.
Lemma pass_no_hang n : forall i c m, url_pass n i c m <> Hangs /\ url_pass n i c m <> Aborts.
Proof.
  induction n as [|n IH]; intros i c m; cbn [url_pass]; [split; discriminate|].
  assert (X : url_step i m <> Hangs /\ url_step i m <> Aborts).
  { unfold url_step. repeat match goal with |- context [match ?x with _ => _ end] => destruct x end; split; discriminate. }
  destruct (url_step i m) as [[m1|c1 m1]| | |]; cbn [rbind]; try (split; discriminate); [apply IH| |]; exfalso; destruct X; contradiction.
Qed.
Lemma rounds_end f len : forall m, (nz m < f)%nat -> url_rounds f len m = Undef \/ exists m', url_rounds f len m = Done m'.
Proof.
  induction f as [|f IH]; intros m H; [lia|]. cbn [url_rounds]. destruct (url_pass len 0 false m) as [r| | |] eqn:E; cbn [rbind].
  - destruct (pass_measure len 0 false m r E) as (L & Le & Lt). destruct r as [m1|[|] m1]; [right; eexists; reflexivity| |right; eexists; reflexivity].
    apply IH. cbn [after changes] in Lt. specialize (Lt eq_refl eq_refl). lia.
  - exfalso. apply (proj1 (pass_no_hang len 0 false m)). exact E.
  - exfalso. apply (proj2 (pass_no_hang len 0 false m)). exact E.
  - left. reflexivity.
Qed.

(** a zero at the end of the memory *)
Definition closed (len : nat) (m : list Z) : Prop := length m = S len /\ nth_error m len = Some 0.
Lemma step_safe len i m : (i < len)%nat -> closed len m -> exists r, url_step i m = Done r /\ closed len (after r).
Proof.
  intros Hi [L Z]. unfold url_step.
  destruct (nth_error m i) as [c|] eqn:E0; [|apply nth_error_None in E0; lia]. destruct (nth_error m (i + 1)) as [c1|] eqn:E1; [|apply nth_error_None in E1; lia].
  destruct (c =? 37); [|eexists; split; [reflexivity|split; assumption]]. destruct (Z.eqb_spec c1 0) as [->|N1]; [eexists; split; [reflexivity|split; assumption]|].
  destruct (hexd c1) eqn:H1; [|eexists; split; [reflexivity|split; assumption]].
  assert ((i + 1 < len)%nat) by (destruct (Nat.eq_dec (i + 1) len) as [D|]; [rewrite D in E1; congruence|lia]).
  destruct (nth_error m (i + 2)) as [c2|] eqn:E2; [|apply nth_error_None in E2; lia]. destruct (hexd c2) eqn:H2; [|eexists; split; [reflexivity|split; assumption]].
  destruct (hexd_nonzero c2 H2) as [A2 _].
  assert ((i + 2 < len)%nat) by (destruct (Nat.eq_dec (i + 2) len) as [D|]; [rewrite D in E2; congruence|lia]).
  assert (Lt : (i + 3 < length m)%nat \/ (i + 3 = len)%nat) by lia.
  destruct (zero_at (skipn (i + 3) m)) as [z|] eqn:Ez.
  - eexists. split; [reflexivity|]. cbn [after]. destruct (zero_at_some _ _ Ez) as (T & R & ET & LT & _).
    assert (LS : length (skipn (i + 3) m) = (length m - (i + 3))%nat) by apply skipn_length. rewrite ET, app_length in LS. cbn [length] in LS.
    assert (L1 : length (firstn i m) = i) by (rewrite firstn_length; lia). assert (L2 : length (firstn (z + 1) (skipn (i + 3) m)) = (z + 1)%nat) by (rewrite firstn_length, ET, app_length; cbn [length]; lia).
    split.
    + rewrite !app_length, L1, L2, skipn_length. cbn [length]. lia.
    + rewrite nth_error_app2 by lia. cbn [app]. replace (len - length (firstn i m))%nat with (S (len - i - 1)) by lia. cbn [nth_error].
      rewrite nth_error_app2 by lia. rewrite L2. rewrite <- (firstn_skipn (i + z + 2) m) in Z. rewrite nth_error_app2 in Z by (rewrite firstn_length; lia). rewrite firstn_length in Z.
      replace (len - i - 1 - (z + 1))%nat with (len - Nat.min (i + z + 2) (length m))%nat by lia. exact Z.
  - exfalso. apply (zero_at_none _ Ez). rewrite <- (firstn_skipn (i + 3) m) in Z. rewrite nth_error_app2 in Z by (rewrite firstn_length; lia). apply nth_error_In in Z. exact Z.
Qed.
Lemma pass_safe len n : forall i c m, (i + n = len)%nat -> closed len m -> exists r, url_pass n i c m = Done r /\ closed len (after r).
Proof.
  induction n as [|n IH]; intros i c m Hi C; cbn [url_pass]; [eexists; split; [reflexivity|exact C]|].
  destruct (step_safe len i m ltac:(lia) C) as (r & -> & C'). cbn [rbind]. destruct r as [m1|c1 m1]; cbn [after] in C'; [eexists; split; [reflexivity|exact C']|].
  apply IH; [lia|exact C'].
Qed.
Lemma rounds_safe f len : forall m, (nz m < f)%nat -> closed len m -> exists m', url_rounds f len m = Done m' /\ closed len m'.
Proof.
  induction f as [|f IH]; intros m H C; [lia|]. cbn [url_rounds]. destruct (pass_safe len len 0 false m eq_refl C) as (r & E & C'). rewrite E. cbn [rbind].
  destruct (pass_measure len 0 false m r E) as (L & Le & Lt). destruct r as [m1|[|] m1]; cbn [after changes] in *; [eexists; split; [reflexivity|exact C']| |eexists; split; [reflexivity|exact C']].
  apply IH; [specialize (Lt eq_refl eq_refl); lia|exact C'].
Qed.

(** a text before the first zero that has no percent sign stays *)
Lemma step_keeps i u q r : ~ In 37 u -> ~ In 0 u -> url_step i (u ++ 0 :: q) = Done r -> exists q', after r = u ++ 0 :: q'.
Proof.
  intros N Nz H. destruct (step_shape i _ r H) as [->|[(P & c1 & R & E & _ & _ & ->)|(P & c1 & c2 & T & R & E & LP & H1 & H2 & N0 & ->)]]; cbn [after]; [exists q; reflexivity|exists q; reflexivity|].
  assert (X : forall u' P', ~ In 37 u' -> u' ++ 0 :: q = P' ++ 37 :: c1 :: c2 :: T ++ 0 :: R -> exists q', P' ++ 16 * hexv c1 + hexv c2 :: T ++ 0 :: last (c2 :: T) 0 :: 0 :: R = u' ++ 0 :: q').
  { clear. induction u' as [|x u' IH]; intros P' N E; destruct P' as [|p P']; cbn [app] in E.
    - discriminate E.
    - injection E as <- E. eexists. reflexivity.
    - injection E as -> E. exfalso. apply N. left. reflexivity.
    - injection E as <- E. destruct (IH P' ltac:(intros H; apply N; right; exact H) E) as [q' Eq]. exists q'. cbn [app]. rewrite Eq. reflexivity. }
  apply X; assumption.
Qed.
Lemma pass_keeps n u : ~ In 37 u -> ~ In 0 u -> forall i c q r, url_pass n i c (u ++ 0 :: q) = Done r -> exists q', after r = u ++ 0 :: q'.
Proof.
  intros N Nz. induction n as [|n IH]; intros i c q r H; cbn [url_pass] in H; [injection H as <-; exists q; reflexivity|].
  destruct (url_step i (u ++ 0 :: q)) as [s| | |] eqn:E; cbn [rbind] in H; try discriminate H. destruct (step_keeps i u q s N Nz E) as [q' Eq].
  destruct s as [m1|c1 m1]; cbn [after] in Eq; subst m1; [injection H as <-; exists q'; reflexivity|]. exact (IH _ _ _ _ H).
Qed.
Lemma rounds_keep f len u : ~ In 37 u -> ~ In 0 u -> forall q m', url_rounds f len (u ++ 0 :: q) = Done m' -> exists q', m' = u ++ 0 :: q'.
Proof.
  intros N Nz. induction f as [|f IH]; intros q m' H; cbn [url_rounds] in H; [discriminate|].
  destruct (url_pass len 0 false (u ++ 0 :: q)) as [r| | |] eqn:E; cbn [rbind] in H; try discriminate H. destruct (pass_keeps len u N Nz 0 false q r E) as [q' Eq].
  destruct r as [m1|[|] m1]; cbn [after] in Eq; subst m1; [injection H as <-; exists q'; reflexivity|exact (IH _ _ H)|injection H as <-; exists q'; reflexivity].
Qed.

(** the first pass decodes *)
Lemma step_plain D c s : c <> 37 -> s <> [] -> url_step (length D) (D ++ c :: s) = Done (Go false (D ++ c :: s)).
Proof.
  intros N Ns. unfold url_step. rewrite !nth_error_app2 by lia. rewrite Nat.sub_diag. replace (length D + 1 - length D)%nat with 1%nat by lia. destruct s as [|x s]; [contradiction|]. cbn [nth_error].
  rewrite (proj2 (Z.eqb_neq _ _) N). reflexivity.
Qed.
Lemma step_escape D a b t r : hexd a = true -> hexd b = true -> ~ In 0 t ->
  url_step (length D) (D ++ 37 :: a :: b :: t ++ 0 :: r) = Done (Go true (D ++ 16 * hexv a + hexv b :: t ++ 0 :: last (b :: t) 0 :: 0 :: r)).
Proof.
  intros Ha Hb N0. destruct (hexd_nonzero a Ha) as [A1 _]. unfold url_step. rewrite !nth_error_app2 by lia. rewrite Nat.sub_diag. replace (length D + 1 - length D)%nat with 1%nat by lia.
  replace (length D + 2 - length D)%nat with 2%nat by lia. cbn [nth_error]. rewrite Z.eqb_refl, (proj2 (Z.eqb_neq _ _) A1), Ha, Hb.
  rewrite skipn_app, skipn_all2 by lia. replace (length D + 3 - length D)%nat with 3%nat by lia. cbn [skipn app]. rewrite zero_at_app by exact N0.
  rewrite firstn_app, Nat.sub_diag, firstn_all. cbn [firstn]. rewrite app_nil_r. f_equal. f_equal. f_equal. cbn [app]. f_equal.
  rewrite firstn_app. replace (length t + 1 - length t)%nat with 1%nat by lia. rewrite firstn_all2 by lia. cbn [firstn]. rewrite <- app_assoc. f_equal. cbn [app]. f_equal.
  rewrite skipn_app, skipn_all2 by lia. replace (length D + length t + 2 - length D)%nat with (S (S (length t))) by lia. cbn [app].
  change (skipn (S (S (length t))) (37 :: a :: b :: t ++ 0 :: r)) with (skipn (length t) (b :: t ++ 0 :: r)). apply tail_left.
Qed.
Lemma percent_cons c t : c <> 37 -> percent (c :: t) = c :: percent t.
Proof. intros N. cbn [percent]. destruct t as [|a [|b u]]; try reflexivity. rewrite (proj2 (Z.eqb_neq _ _) N). reflexivity. Qed.
Lemma percent_escape t : ~ In 37 (percent (37 :: t)) -> exists a b u, t = a :: b :: u /\ hexd a = true /\ hexd b = true /\ percent (37 :: t) = 16 * hexv a + hexv b :: percent u.
Proof.
  intros N. destruct t as [|a [|b u]]; [exfalso; apply N; left; reflexivity|exfalso; apply N; left; reflexivity|]. exists a, b, u.
  assert (E : percent (37 :: a :: b :: u) = if hexd a && hexd b then 16 * hex_value a + hex_value b :: percent u else 37 :: percent (a :: b :: u)) by reflexivity.
  rewrite E in N |- *. destruct (hexd a) eqn:Ha; cbn [andb] in *; [|exfalso; apply N; left; reflexivity]. destruct (hexd b) eqn:Hb; [|exfalso; apply N; left; reflexivity].
  rewrite (hexv_spec a Ha), (hexv_spec b Hb). repeat split.
Qed.
Lemma pass_decodes n : forall D s r0 c r, ~ In 37 D -> ~ In 0 D -> ~ In 0 s -> ~ In 37 (percent s) -> ~ In 0 (percent s) -> (length s <= n)%nat ->
  url_pass n (length D) c (D ++ s ++ 0 :: r0) = Done r -> exists q, after r = (D ++ percent s) ++ 0 :: q.
Proof.
  induction n as [|n IH]; intros D s r0 c r N37 N0 Ns P37 P0 L H.
  - destruct s; [|cbn in L; lia]. cbn [url_pass app] in H. injection H as <-. cbn [after percent]. rewrite app_nil_r. exists r0. reflexivity.
  - destruct s as [|x s].
    + cbn [app percent] in *. rewrite app_nil_r. exact (pass_keeps (S n) D N37 N0 _ _ _ _ H).
    + cbn [url_pass] in H. destruct (Z.eq_dec x 37) as [->|Nx].
      * destruct (percent_escape s P37) as (a & b & u & -> & Ha & Hb & Ep). rewrite Ep in *. set (v := 16 * hexv a + hexv b) in *.
        assert (Nu : ~ In 0 u) by (intros X; apply Ns; right; right; right; exact X). cbn [app] in H. rewrite step_escape in H by assumption. fold v in H. cbn [rbind] in H.
        replace (D ++ v :: u ++ 0 :: last (b :: u) 0 :: 0 :: r0) with ((D ++ [v]) ++ u ++ 0 :: last (b :: u) 0 :: 0 :: r0) in H by (rewrite <- app_assoc; reflexivity).
        replace (S (length D)) with (length (D ++ [v])) in H by (rewrite app_length; cbn [length]; lia).
        edestruct (fun A1 A2 A3 A4 A5 A6 => IH (D ++ [v]) u _ _ _ A1 A2 A3 A4 A5 A6 H) as [q Eq].
        -- intros X. apply in_app_iff in X as [X|[X|[]]]; [contradiction|]. apply P37. left. exact X.
        -- intros X. apply in_app_iff in X as [X|[X|[]]]; [contradiction|]. apply P0. left. exact X.
        -- exact Nu.
        -- intros X. apply P37. right. exact X.
        -- intros X. apply P0. right. exact X.
        -- cbn [length] in L. lia.
        -- exists q. rewrite Eq, <- !app_assoc. reflexivity.
      * cbn [app] in H. rewrite step_plain in H by (try assumption; destruct s; discriminate). cbn [rbind] in H. rewrite percent_cons in * by exact Nx.
        replace (D ++ x :: s ++ 0 :: r0) with ((D ++ [x]) ++ s ++ 0 :: r0) in H by (rewrite <- app_assoc; reflexivity).
        replace (S (length D)) with (length (D ++ [x])) in H by (rewrite app_length; cbn [length]; lia).
        edestruct (fun A1 A2 A3 A4 A5 A6 => IH (D ++ [x]) s _ _ _ A1 A2 A3 A4 A5 A6 H) as [q Eq].
        -- intros X. apply in_app_iff in X as [X|[X|[]]]; [contradiction|]. congruence.
        -- intros X. apply in_app_iff in X as [X|[X|[]]]; [contradiction|]. apply Ns. left. exact X.
        -- intros X. apply Ns. right. exact X.
        -- intros X. apply P37. right. exact X.
        -- intros X. apply P0. right. exact X.
        -- cbn [length] in L. lia.
        -- exists q. rewrite Eq, <- !app_assoc. reflexivity.
Qed.
Lemma start_closed s : closed (length s) (s ++ [0]).
Proof. split; [rewrite app_length; cbn; lia|]. rewrite nth_error_app2 by lia. rewrite Nat.sub_diag. reflexivity. Qed.
Lemma start_memory s j : firstn (length s) (s ++ repeat 0 (length s)) ++ [j] = s ++ [j].
Proof. rewrite firstn_app, Nat.sub_diag, firstn_all. cbn [firstn]. rewrite app_nil_r. reflexivity. Qed.
Lemma decodes s : ~ In 0 s -> ~ In 37 (percent s) -> ~ In 0 (percent s) -> exists m, url_decode s (length s) 0 = Done m /\ c_string m = Done (percent s).
Proof.
  intros Ns P37 P0. unfold url_decode. rewrite start_memory. replace (length s + 2)%nat with (S (S (length s))) by lia.
  destruct (rounds_safe (S (S (length s))) (length s) (s ++ [0])) as (m' & E & _); [pose proof (nz_le s); rewrite nz_app; cbn; lia|apply start_closed|]. exists m'. split; [exact E|].
  cbn [url_rounds] in E. destruct (url_pass (length s) 0 false (s ++ [0])) as [r| | |] eqn:Ep; cbn [rbind] in E; try discriminate E.
  destruct (pass_decodes (length s) [] s [] false r (fun x => x) (fun x => x) Ns P37 P0 ltac:(lia) Ep) as [q Eq]. cbn [app] in Eq.
  destruct r as [m1|[|] m1]; cbn [after] in Eq; subst m1; [injection E as <-; apply c_string_app; exact P0| |injection E as <-; apply c_string_app; exact P0].
  destruct (rounds_keep (S (length s)) (length s) (percent s) P37 P0 q m') as [q' ->]; [exact E|]. apply c_string_app. exact P0.
Qed.

(** without a zero nothing is ever moved *)
Lemma step_open i m r : ~ In 0 m -> url_step i m = Done r -> r = Go false m.
Proof.
  intros N H. destruct (step_shape i m r H) as [->|[(P & c1 & R & -> & _ & -> & _)|(P & c1 & c2 & T & R & -> & _)]]; [reflexivity| |]; exfalso; apply N.
  - rewrite in_app_iff. right. right. left. reflexivity.
  - rewrite in_app_iff. right. right. right. right. rewrite in_app_iff. right. left. reflexivity.
Qed.
Lemma pass_open n : forall i m r, ~ In 0 m -> url_pass n i false m = Done r -> r = Go false m.
Proof.
  induction n as [|n IH]; intros i m r N H; cbn [url_pass] in H; [congruence|]. destruct (url_step i m) as [s| | |] eqn:E; cbn [rbind] in H; try discriminate H.
  rewrite (step_open i m s N E) in H. exact (IH _ _ _ N H).
Qed.
Lemma rounds_open f len m m' : ~ In 0 m -> url_rounds f len m = Done m' -> m' = m.
Proof.
  intros N. destruct f as [|f]; intros H; cbn [url_rounds] in H; [discriminate|]. destruct (url_pass len 0 false m) as [r| | |] eqn:E; cbn [rbind] in H; try discriminate H.
  rewrite (pass_open len 0 m r N E) in H. congruence.
Qed.

(** the text before an encoded zero is all that is left *)
Lemma pass_cut n : forall D u t r0 c r, ~ In 37 D -> ~ In 0 D -> ~ In 37 u -> ~ In 0 u -> ~ In 0 t -> (length u + 1 <= n)%nat ->
  url_pass n (length D) c (D ++ u ++ 37 :: 48 :: 48 :: t ++ 0 :: r0) = Done r -> exists q, after r = (D ++ u) ++ 0 :: q.
Proof.
  induction n as [|n IH]; intros D u t r0 c r N37 N0 U37 U0 Nt L H; [lia|]. cbn [url_pass] in H. destruct u as [|x u]; cbn [app] in H.
  - rewrite step_escape in H by (reflexivity || assumption). cbn [rbind] in H. change (16 * hexv 48 + hexv 48) with 0 in H. rewrite app_nil_r.
    exact (pass_keeps n D N37 N0 _ _ _ _ H).
  - rewrite step_plain in H; [|intros ->; apply U37; left; reflexivity|destruct u; discriminate]. cbn [rbind] in H.
    replace (D ++ x :: u ++ 37 :: 48 :: 48 :: t ++ 0 :: r0) with ((D ++ [x]) ++ u ++ 37 :: 48 :: 48 :: t ++ 0 :: r0) in H by (rewrite <- app_assoc; reflexivity).
    replace (S (length D)) with (length (D ++ [x])) in H by (rewrite app_length; cbn [length]; lia).
    edestruct (fun A1 A2 A3 A4 A5 A6 => IH (D ++ [x]) u t _ _ _ A1 A2 A3 A4 A5 A6 H) as [q Eq].
    + intros X. apply in_app_iff in X as [X|[X|[]]]; [contradiction|]. apply U37. left. exact X.
    + intros X. apply in_app_iff in X as [X|[X|[]]]; [contradiction|]. apply U0. left. exact X.
    + intros X. apply U37. right. exact X.
    + intros X. apply U0. right. exact X.
    + exact Nt.
    + cbn [length] in L. lia.
    + exists q. rewrite Eq, <- !app_assoc. reflexivity.
Qed.
Lemma cut u t : ~ In 37 u -> ~ In 0 u -> ~ In 0 t -> let s := u ++ 37 :: 48 :: 48 :: t in
  exists m, url_decode s (length s) 0 = Done m /\ c_string m = Done u.
Proof.
  intros U37 U0 Nt s. unfold url_decode. rewrite start_memory. replace (length s + 2)%nat with (S (S (length s))) by lia.
  destruct (rounds_safe (S (S (length s))) (length s) (s ++ [0])) as (m' & E & _); [pose proof (nz_le s); rewrite nz_app; cbn; lia|apply start_closed|]. exists m'. split; [exact E|].
  cbn [url_rounds] in E. destruct (url_pass (length s) 0 false (s ++ [0])) as [r| | |] eqn:Ep; cbn [rbind] in E; try discriminate E.
  unfold s in Ep at 2. rewrite <- app_assoc in Ep. cbn [app] in Ep.
  destruct (pass_cut (length s) [] u t [] false r (fun x => x) (fun x => x) U37 U0 Nt) as [q Eq]; [unfold s; rewrite app_length; cbn [length]; lia|exact Ep|]. cbn [app] in Eq.
  destruct r as [m1|[|] m1]; cbn [after] in Eq; subst m1; [injection E as <-; apply c_string_app; exact U0| |injection E as <-; apply c_string_app; exact U0].
  destruct (rounds_keep (S (length s)) (length s) u U37 U0 q m') as [q' ->]; [exact E|]. apply c_string_app. exact U0.
Qed.

(** ** Arguments *)
Lemma tokens_sep a c s : plain a -> c = 38 \/ c = 61 -> tokens (a ++ c :: s) = a :: tokens s.
Proof.
  intros P C. induction P as [|x a [N1 N2] P IH]; cbn [app tokens].
  - destruct C as [-> | ->]; reflexivity.
  - rewrite IH. rewrite (proj2 (Z.eqb_neq _ _) N1), (proj2 (Z.eqb_neq _ _) N2). reflexivity.
Qed.
Lemma tokens_end a : plain a -> tokens a = [a].
Proof. intros P. induction P as [|x a [N1 N2] P IH]; cbn [tokens]; [reflexivity|]. rewrite IH, (proj2 (Z.eqb_neq _ _) N1), (proj2 (Z.eqb_neq _ _) N2). reflexivity. Qed.
Lemma pairs_query args : args <> [] -> Forall (fun e => plain (fst e) /\ plain (snd e)) args -> pairs (tokens (query args)) = args.
Proof.
  induction args as [|[k v] args IH]; intros N H; [contradiction|]. inversion H as [|? ? [Pk Pv] H']; subst. cbn [fst snd] in *. cbn [query]. cbn [app].
  rewrite tokens_sep by (tauto || right; reflexivity). destruct args as [|e args].
  - rewrite app_nil_r, tokens_end by exact Pv. reflexivity.
  - rewrite tokens_sep by (tauto || left; reflexivity). cbn [pairs]. rewrite IH by (discriminate || exact H'). reflexivity.
Qed.
Lemma find_str_none (V : Type) (l : list (list Z * V)) k : ~ In k (map fst l) -> find_str l k = None.
Proof.
  unfold find_str. induction l as [|e l IH]; intros N; cbn [find]; [reflexivity|]. cbn [map] in N. destruct (list_eq_dec Z.eq_dec (fst e) k) as [D|]; [exfalso; apply N; left; exact D|].
  apply IH. intros H. apply N. right. exact H.
Qed.
Lemma insert_all (V : Type) (l : list (list Z * V)) : forall acc, NoDup (map fst (acc ++ l)) -> Forall (fun e => (length (fst e) <= 255)%nat) l ->
  fold_left (fun t e => insert_str t (fst e) (snd e)) l acc = acc ++ l.
Proof.
  induction l as [|[k v] l IH]; intros acc N H; cbn [fold_left]; [rewrite app_nil_r; reflexivity|]. inversion H as [|? ? Hk H']; subst. cbn [fst snd] in *.
  unfold insert_str at 2. rewrite find_str_none.
  - rewrite firstn_all2 by lia. rewrite IH; [rewrite <- app_assoc; reflexivity|rewrite <- app_assoc; exact N|exact H'].
  - rewrite map_app in N. cbn [map fst] in N. apply NoDup_remove_2 in N. intros X. apply N. apply in_app_iff. left. exact X.
Qed.

(** ** Callbacks *)
Lemma unsigned_colon f m : ~ In 58 (unsigned f m).
Proof.
  revert m. induction f as [|f IH]; intros m; cbn [unsigned]; [intros []|]. rewrite in_app_iff. intros [H|[H|[]]]; [destruct (m <? 10); [destruct H|exact (IH _ H)]|].
  pose proof (Z.mod_pos_bound m 10 ltac:(lia)). lia.
Qed.
Lemma split_colon (a b p q : list Z) : ~ In 58 a -> ~ In 58 b -> a ++ 58 :: p = b ++ 58 :: q -> a = b /\ p = q.
Proof.
  revert b. induction a as [|x a IH]; intros [|y b] Na Nb E; cbn [app] in E.
  - injection E as E. split; [reflexivity|exact E].
  - injection E as <- E. exfalso. apply Nb. left. reflexivity.
  - injection E as -> E. exfalso. apply Na. left. reflexivity.
  - injection E as <- E. destruct (IH b) as [-> ->]; [intros H; apply Na; right; exact H|intros H; apply Nb; right; exact H|exact E|split; reflexivity].
Qed.
Lemma method_short m : 0 <= m < 100 -> (1 <= length (unsigned 3 m) <= 2)%nat.
Proof.
  intros H. cbn [unsigned]. destruct (Z.ltb_spec m 10); [cbn; lia|]. assert (m / 10 < 10) by (apply Z.div_lt_upper_bound; lia). rewrite (proj2 (Z.ltb_lt _ _)) by lia. cbn. lia.
Qed.
Lemma key_whole m p : short m p -> hook_key m p = unsigned 3 m ++ 58 :: p.
Proof. intros [Hm Hp]. unfold hook_key. apply firstn_all2. rewrite app_length. cbn [length]. pose proof (method_short m Hm). lia. Qed.
Lemma key_inj m p m' p' : short m p -> short m' p' -> hook_key m p = hook_key m' p' -> m = m' /\ p = p'.
Proof.
  intros S1 S2. rewrite !key_whole by assumption. intros E. apply split_colon in E; [|apply unsigned_colon..]. destruct E as [E ->]. split; [|reflexivity].
  destruct S1 as [? _], S2 as [? _]. apply (unsigned_inj 3); [change (10 ^ Z.of_nat 3) with 1000; lia..|exact E].
Qed.
Lemma key_length m p : (length (hook_key m p) <= 127)%nat.
Proof. unfold hook_key. rewrite firstn_length. lia. Qed.
Lemma find_str_app (V : Type) (a b : list (list Z * V)) k : find_str (a ++ b) k = match find_str a k with Some v => Some v | None => find_str b k end.
Proof. unfold find_str. induction a as [|e a IH]; cbn [app find]; [reflexivity|]. destruct (list_eq_dec Z.eq_dec (fst e) k); [reflexivity|exact IH]. Qed.
Lemma find_added m p : short m p -> forall rs hooks, Forall (fun r => short (fst (fst r)) (snd (fst r))) rs ->
  find_str (fold_left add_callback rs hooks) (hook_key m p) = match find_str hooks (hook_key m p) with Some c => Some c | None => registered rs m p end.
Proof.
  intros Sh. induction rs as [|[[m' p'] cb] rs IH]; intros hooks H; cbn [fold_left registered]; [destruct (find_str hooks _); reflexivity|].
  inversion H as [|? ? S' H']; subst. cbn [fst snd] in S'. rewrite IH by exact H'. unfold add_callback, insert_str. pose proof (key_length m' p') as L. rewrite (firstn_all2 (hook_key m' p')) by lia.
  destruct (list_eq_dec Z.eq_dec (hook_key m' p') (hook_key m p)) as [E|N].
  - destruct (key_inj _ _ _ _ S' Sh E) as [-> ->]. rewrite Z.eqb_refl. destruct (list_eq_dec Z.eq_dec p p) as [_|]; [|contradiction].
    destruct (find_str hooks (hook_key m p)) eqn:F; [rewrite F; reflexivity|]. rewrite find_str_app, F. unfold find_str at 1. cbn [find fst snd]. destruct (list_eq_dec Z.eq_dec (hook_key m p) (hook_key m p)); [reflexivity|contradiction].
  - assert (R : (if m' =? m then if list_eq_dec Z.eq_dec p' p then Some cb else registered rs m p else registered rs m p) = registered rs m p).
    { destruct (Z.eqb_spec m' m) as [->|]; [|reflexivity]. destruct (list_eq_dec Z.eq_dec p' p) as [->|]; [contradiction|reflexivity]. }
    rewrite R. destruct (find_str hooks (hook_key m' p')); [reflexivity|]. rewrite find_str_app. destruct (find_str hooks (hook_key m p)); [reflexivity|].
    unfold find_str at 1. cbn [find fst]. destruct (list_eq_dec Z.eq_dec (hook_key m' p') (hook_key m p)); [contradiction|reflexivity].
Qed.

(** ** The text for unknown paths *)
Definition total (ps : list (list Z)) : Z := fold_right (fun p n => Z.of_nat (length p) + n) 0 ps.
Lemma total_nonneg ps : 0 <= total ps.
Proof. induction ps as [|p ps IH]; cbn [total fold_right]; [lia|]. fold (total ps). lia. Qed.
Lemma print_fits last ps : forall len buf, (if 8000 <? len + total ps then print_all (ps ++ [last]) len buf = Undef else exists b, print_all (ps ++ [last]) len buf = Done b).
Proof.
  induction ps as [|p ps IH]; intros len buf.
  - cbn [total fold_right app print_all]. rewrite Z.add_0_r. destruct (8000 <? len); [reflexivity|eexists; reflexivity].
  - cbn [app print_all]. cbn [total fold_right]. fold (total ps). pose proof (total_nonneg ps). specialize (IH (len + Z.of_nat (length p)) (buf ++ firstn (Z.to_nat (7999 - len)) p)).
    rewrite <- Z.add_assoc in IH. destruct (Z.ltb_spec 8000 len) as [L|L]; [|exact IH].
    destruct (Z.ltb_spec 8000 (len + (Z.of_nat (length p) + total ps))); [reflexivity|lia].
Qed.
Lemma total_pieces hooks key : not_found_pieces hooks key = (not_found_begin key :: map (fun h => [34] ++ fst h ++ [34; 44]) hooks) ++ [text "]}"%string] /\
  total (not_found_begin key :: map (fun h => [34] ++ fst h ++ [34; 44]) hooks) = 65 + Z.of_nat (length key) + listed hooks.
Proof.
  split; [reflexivity|]. cbn [total fold_right]. assert (B : Z.of_nat (length (not_found_begin key)) = 65 + Z.of_nat (length key)) by (unfold not_found_begin; rewrite !app_length;
    match goal with |- context [(length (text ?a) + (_ + length (text ?b)))%nat] => let x := eval vm_compute in (length (text a)) in let y := eval vm_compute in (length (text b)) in change (length (text a)) with x; change (length (text b)) with y end; lia).
  assert (X : total (map (fun h : list Z * nat => [34] ++ fst h ++ [34; 44]) hooks) = listed hooks).
  { induction hooks as [|h hooks IH]; [reflexivity|]. cbn [map total fold_right listed]. fold (total (map (fun h : list Z * nat => [34] ++ fst h ++ [34; 44]) hooks)). fold (listed hooks). rewrite IH, !app_length. cbn [length]. lia. }
  fold (total (map (fun h : list Z * nat => [34] ++ fst h ++ [34; 44]) hooks)). rewrite X. 
  lia.
Qed.
