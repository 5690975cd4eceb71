(** The tokens of a tree: the loops of np_minhash_push_tree emit exactly the shingles. *)
From Verif Require Import Base Minhash_Model Minhash_Spec.

Definition lastn {A} (k : nat) (l : list A) : list A := skipn (length l - k) l.

Lemma lastn_app {A} k (a b : list A) : length b = k -> lastn k (a ++ b) = b.
Proof.
  intros H. unfold lastn. rewrite app_length. replace (length a + length b - k)%nat with (length a) by lia.
  rewrite skipn_app, skipn_all, Nat.sub_diag. reflexivity.
Qed.
Lemma lastn_split {A} k (l : list A) : (k <= length l)%nat -> exists a, l = a ++ lastn k l /\ length (lastn k l) = k.
Proof.
  intros H. exists (firstn (length l - k) l). unfold lastn. split; [symmetry; apply firstn_skipn|]. rewrite skipn_length. lia.
Qed.

Lemma windows_in {A} k (l w : list A) : (1 <= k)%nat ->
  (In w (windows k l) <-> exists a b, l = a ++ w ++ b /\ length w = k).
Proof.
  intros Hk. revert w. induction l as [|x l IH]; intros w; cbn [windows].
  - split; [intros []|]. intros (a & b & E & L). destruct a, w; cbn in *; try discriminate. lia.
  - destruct (Nat.ltb_spec (length (x :: l)) k) as [Lt|Ge].
    + split; [intros []|]. intros (a & b & E & L). apply (f_equal (@length A)) in E. rewrite !app_length in E. lia.
    + cbn [In]. rewrite IH. split.
      * intros [<-|(a & b & -> & L)].
        -- exists [], (skipn k (x :: l)). split; [symmetry; apply firstn_skipn|]. apply firstn_length_le. lia.
        -- exists (x :: a), b. auto.
      * intros (a & b & E & L). destruct a as [|y a].
        -- left. cbn [app] in E. rewrite E. rewrite <- L, firstn_app, Nat.sub_diag, firstn_all. cbn. apply app_nil_r.
        -- right. cbn in E. injection E as <- E. eauto.
Qed.

Section Walk.
  Variable k : nat.
  Variable sel : token * rval -> token.
  Variable emit : list token -> token * rval -> outcome (list token).

  Fixpoint walk (i : Z) (parts : list token) (es : list (token * rval)) : outcome (list token) :=
    match es with
    | [] => Ok []
    | e :: r =>
        let parts := place k parts (sel e) in
        let rest := walk (u16 (i + 1)) (shift parts) r in
        if Z.of_nat k - 1 <=? i then obind (emit parts e) (fun s => obind rest (fun l => Ok (s ++ l))) else rest
    end.

  Definition evolve (parts : list token) (e : token * rval) : list token := shift (place k parts (sel e)).

  Hypothesis k1 : (1 <= k)%nat.

  Lemma place_eq parts x : length parts = k -> place k parts x = firstn (k - 1) parts ++ [x].
  Proof.
    intros H. unfold place. destruct k as [|n]; [lia|]. replace (S n - 1)%nat with n by lia. clear k1. revert parts H.
    induction n as [|n IH]; intros [|p parts] H; try discriminate.
    - destruct parts; [reflexivity|discriminate].
    - cbn [upd firstn app]. f_equal. apply IH. cbn in H. lia.
  Qed.

  Lemma shift_length p : p <> [] -> length (shift p) = length p.
  Proof. destruct p; [congruence|]. intros _. unfold shift. rewrite app_length. cbn. lia. Qed.

  Lemma evolve_parts pre : let p := fold_left evolve pre (repeat [] k) in
    length p = k /\ firstn (k - 1) p = lastn (k - 1) (repeat [] (k - 1) ++ map sel pre).
  Proof.
    induction pre as [|e pre IH] using rev_ind.
    - cbn [fold_left map]. rewrite app_nil_r. split; [apply repeat_length|]. unfold lastn. rewrite repeat_length, Nat.sub_diag.
      cbn [skipn]. replace (repeat [] k) with (repeat ([] : token) (k - 1) ++ repeat [] 1).
      2:{ rewrite <- repeat_app. f_equal. lia. }
      rewrite firstn_app, repeat_length, Nat.sub_diag. rewrite firstn_all2 by (rewrite repeat_length; lia).
      cbn [firstn]. apply app_nil_r.
    - rewrite fold_left_app. cbn [fold_left]. set (p := fold_left evolve pre (repeat [] k)) in *. destruct IH as (L & F).
      unfold evolve at 1 2. rewrite place_eq by exact L. rewrite F. rewrite map_app. cbn [map].
      set (Q := repeat [] (k - 1) ++ map sel pre) in *. rewrite app_assoc. fold Q.
      assert (LQ : (k - 1 <= length Q)%nat) by (unfold Q; rewrite app_length, repeat_length; lia).
      destruct (lastn_split (k - 1) Q LQ) as (a & EQ & LL). set (q := lastn (k - 1) Q) in *.
      assert (Lq : length (q ++ [sel e]) = k) by (rewrite app_length; cbn; lia).
      split.
      + rewrite shift_length; auto. destruct q; discriminate.
      + unfold shift. destruct (q ++ [sel e]) as [|y z] eqn:Ez; [destruct q; discriminate|]. cbn [tl].
        rewrite firstn_app. cbn [length] in Lq. rewrite (firstn_all2 z) by lia. replace (k - 1 - length z)%nat with 0%nat by lia.
        cbn [firstn]. rewrite app_nil_r. rewrite EQ, <- app_assoc, Ez.
        replace (a ++ y :: z) with ((a ++ [y]) ++ z) by (rewrite <- app_assoc; reflexivity).
        symmetry. apply lastn_app. lia.
  Qed.

  Lemma window_at pre e : (k - 1 <= length pre)%nat ->
    place k (fold_left evolve pre (repeat [] k)) (sel e) = lastn k (map sel (pre ++ [e])).
  Proof.
    intros H. destruct (evolve_parts pre) as (L & F). rewrite place_eq, F by exact L. rewrite map_app. cbn [map].
    assert (Hm : (k - 1 <= length (map sel pre))%nat) by (rewrite map_length; lia).
    destruct (lastn_split (k - 1) (map sel pre) Hm) as (a & E & LL). set (q := lastn (k - 1) (map sel pre)) in *.
    rewrite E. rewrite app_assoc, lastn_app by exact LL. rewrite <- app_assoc. symmetry. apply lastn_app.
    rewrite app_length. cbn. lia.
  Qed.

  Lemma walk_in es : forall pre ts, Z.of_nat (length (pre ++ es)) < 65536 ->
    walk (Z.of_nat (length pre)) (fold_left evolve pre (repeat [] k)) es = Ok ts ->
    forall t, In t ts <-> exists p e q l, es = p ++ e :: q /\ (k - 1 <= length (pre ++ p))%nat /\
      emit (lastn k (map sel (pre ++ p ++ [e]))) e = Ok l /\ In t l.
  Proof.
    induction es as [|e es IH]; intros pre ts Hl E t.
    - cbn in E. injection E as <-. split; [intros []|]. intros (p & e & q & l & X & _). destruct p; discriminate.
    - cbn [walk] in E. rewrite app_length in Hl. cbn [length] in Hl.
      rewrite u16_id in E by lia.
      change (shift (place k (fold_left evolve pre (repeat [] k)) (sel e))) with (evolve (fold_left evolve pre (repeat [] k)) e) in E.
      assert (Ef : evolve (fold_left evolve pre (repeat [] k)) e = fold_left evolve (pre ++ [e]) (repeat [] k))
        by (rewrite fold_left_app; reflexivity).
      rewrite Ef in E. replace (Z.of_nat (length pre) + 1) with (Z.of_nat (length (pre ++ [e]))) in E by (rewrite app_length; cbn; lia).
      assert (Hl' : Z.of_nat (length ((pre ++ [e]) ++ es)) < 65536) by (rewrite !app_length; cbn [length]; lia).
      assert (Tail : forall ts', walk (Z.of_nat (length (pre ++ [e]))) (fold_left evolve (pre ++ [e]) (repeat [] k)) es = Ok ts' ->
        (In t ts' <-> exists p e0 q l, e :: es = (e :: p) ++ e0 :: q /\ (k - 1 <= length (pre ++ e :: p))%nat /\
          emit (lastn k (map sel (pre ++ (e :: p) ++ [e0]))) e0 = Ok l /\ In t l)).
      { intros ts' E'. rewrite (IH _ _ Hl' E' t). split; intros (p & e0 & q & l & A & B & C & D); exists p, e0, q, l.
        - rewrite <- !app_assoc in *. cbn [app] in *. split; [congruence|]. auto.
        - rewrite <- !app_assoc. cbn [app] in *. injection A as A. auto. }
      destruct (Z.leb_spec (Z.of_nat k - 1) (Z.of_nat (length pre))) as [Le|Gt].
      + rewrite window_at in E by lia.
        destruct (emit (lastn k (map sel (pre ++ [e]))) e) as [l| |] eqn:Em; try discriminate. cbn [obind] in E.
        destruct (walk _ _ es) as [ts'| |] eqn:Ew; try discriminate. cbn [obind] in E. injection E as <-.
        rewrite in_app_iff, (Tail ts' eq_refl). split.
        * intros [H|(p & e0 & q & l0 & X)]; [exists [], e, es, l|exists (e :: p), e0, q, l0; exact X].
          rewrite app_nil_r. split; [reflexivity|]. split; [lia|]. auto.
        * intros ([|e1 p] & e0 & q & l0 & A & B & C & D).
          -- left. cbn in A. injection A as <- <-. cbn [app] in C. rewrite Em in C. injection C as <-. exact D.
          -- right. cbn in A. injection A as <- A. exists p, e0, q, l0. cbn [app]. split; [congruence|]. auto.
      + rewrite (Tail ts E). split.
        * intros (p & X). exists (e :: p). exact X.
        * intros ([|e1 p] & e0 & q & l0 & A & B & C & D).
          -- rewrite app_nil_r in B. lia.
          -- cbn in A. injection A as <- A. exists p, e0, q, l0. cbn [app]. split; [congruence|]. auto.
  Qed.

  (** in terms of windows of the list of entries *)
  Lemma walk_windows es ts : Z.of_nat (length es) < 65536 -> walk 0 (repeat [] k) es = Ok ts ->
    forall t, In t ts <-> exists w l, In w (windows k es) /\ emit (map sel w) (last w ([], Leaf [])) = Ok l /\ In t l.
  Proof.
    intros Hl E t. rewrite (walk_in es [] ts Hl E t). cbn [app]. split.
    - intros (p & e & q & l & -> & B & C & D). exists (lastn k (p ++ [e])), l.
      assert (Hk : (k <= length (p ++ [e]))%nat) by (rewrite app_length; cbn; lia).
      destruct (lastn_split k (p ++ [e]) Hk) as (a & Ea & La). set (w := lastn k (p ++ [e])) in *. split; [|split; [|exact D]].
      + apply windows_in; auto. exists a, q. split; auto. rewrite app_assoc, <- Ea, <- app_assoc. reflexivity.
      + assert (Lw : last w ([], Leaf []) = e).
        { assert (X : last (p ++ [e]) ([], Leaf []) = e) by apply last_last. rewrite Ea in X.
          destruct w as [|w0 w] using rev_ind; [cbn in La; lia|]. rewrite app_assoc, last_last in X. rewrite last_last. exact X. }
        rewrite Lw. rewrite Ea, map_app, lastn_app in C by (rewrite map_length; exact La). exact C.
    - intros (w & l & Hw & C & D). apply windows_in in Hw; auto. destruct Hw as (a & b & -> & Lw).
      destruct w as [|e w _] using rev_ind; [cbn in Lw; lia|]. rewrite last_last in C.
      exists (a ++ w), e, b, l. split; [rewrite <- !app_assoc; reflexivity|]. rewrite app_length in Lw. cbn in Lw.
      split; [rewrite app_length; lia|]. split; auto. rewrite <- app_assoc, map_app, lastn_app; auto. rewrite map_length, app_length. cbn; lia.
  Qed.

  Lemma walk_emits es : forall pre bb, Z.of_nat (length (pre ++ es)) < 65536 ->
    walk (Z.of_nat (length pre)) (fold_left evolve pre (repeat [] k)) es = Ok bb ->
    forall p e q, es = p ++ e :: q -> (k - 1 <= length (pre ++ p))%nat ->
    exists l, emit (lastn k (map sel (pre ++ p ++ [e]))) e = Ok l.
  Proof.
    induction es as [|e1 es IHes]; intros pre bb Hl E p e q Ep Hp; [destruct p; discriminate|].
    cbn [walk] in E. rewrite app_length in Hl. cbn [length] in Hl. rewrite u16_id in E by lia.
    destruct p as [|p0 p].
    - cbn in Ep. injection Ep as <- <-. cbn [app]. rewrite app_nil_r in Hp.
      replace (Z.of_nat k - 1 <=? Z.of_nat (length pre)) with true in E by lia.
      rewrite (window_at pre e1 Hp) in E. destruct (emit _ e1) as [l| |]; try discriminate. eauto.
    - cbn in Ep. injection Ep as <- ->.
      assert (exists bb', walk (Z.of_nat (length (pre ++ [e1]))) (fold_left evolve (pre ++ [e1]) (repeat [] k)) (p ++ e :: q) = Ok bb') as (bb' & E').
      { rewrite fold_left_app. cbn [fold_left]. unfold evolve at 1. rewrite app_length. cbn [length]. rewrite Nat2Z.inj_add. cbn [Z.of_nat Pos.of_succ_nat].
        destruct (_ <=? _) in E; [|eauto]. destruct (emit _ _); try discriminate. cbn [obind] in E.
        match type of E with obind ?x _ = _ => destruct x as [bb'| |] eqn:Ew; try discriminate end. eauto. }
      destruct (IHes (pre ++ [e1]) bb') with (p := p) (e := e) (q := q) as (l & El); auto.
      + rewrite <- app_assoc. rewrite !app_length in *. cbn [length app] in *. lia.
      + rewrite <- app_assoc. exact Hp.
      + exists l. rewrite <- app_assoc in El. exact El.
  Qed.

  Lemma windows_emit es ts : Z.of_nat (length es) < 65536 -> walk 0 (repeat [] k) es = Ok ts ->
    forall w, In w (windows k es) -> exists l, emit (map sel w) (last w ([], Leaf [])) = Ok l.
  Proof.
    intros Hl E w Hw. apply windows_in in Hw; auto. destruct Hw as (pa & q & Es & Lw).
    destruct w as [|e w _] using rev_ind; [cbn in Lw; lia|]. rewrite last_last. rewrite app_length in Lw. cbn in Lw.
    destruct (walk_emits es [] ts Hl E (pa ++ w) e q) as (l & El).
    - rewrite Es, <- !app_assoc. reflexivity.
    - cbn [app]. rewrite app_length. lia.
    - exists l. cbn [app] in El. rewrite <- app_assoc, map_app, lastn_app in El; [exact El|]. rewrite map_length, app_length. cbn. lia.
  Qed.

  Lemma walk_succeeds es : forall pre, Z.of_nat (length (pre ++ es)) < 65536 ->
    (forall p e q, es = p ++ e :: q -> (k - 1 <= length (pre ++ p))%nat -> exists l, emit (lastn k (map sel (pre ++ p ++ [e]))) e = Ok l) ->
    exists ts, walk (Z.of_nat (length pre)) (fold_left evolve pre (repeat [] k)) es = Ok ts.
  Proof.
    induction es as [|e1 es IHes]; intros pre Hl H; [cbn; eauto|].
    cbn [walk]. rewrite app_length in Hl. cbn [length] in Hl. rewrite u16_id by lia.
    destruct (IHes (pre ++ [e1])) as (ts & E).
    - rewrite !app_length. cbn [length]. lia.
    - intros p e q Ep Hp. destruct (H (e1 :: p) e q) as (l & El); [cbn; congruence|rewrite <- app_assoc in Hp; exact Hp|].
      exists l. rewrite <- !app_assoc. exact El.
    - rewrite fold_left_app in E. cbn [fold_left] in E. unfold evolve at 1 in E. rewrite app_length in E. cbn [length] in E.
      rewrite Nat2Z.inj_add in E. cbn [Z.of_nat Pos.of_succ_nat] in E. rewrite E.
      destruct (Z.leb_spec (Z.of_nat k - 1) (Z.of_nat (length pre))); [|eauto].
      rewrite window_at by lia. destruct (H [] e1 es eq_refl) as (l & El); [rewrite app_nil_r; lia|]. cbn [app] in El. rewrite El. cbn. eauto.
  Qed.

  Lemma windows_succeed es : Z.of_nat (length es) < 65536 ->
    (forall w, In w (windows k es) -> exists l, emit (map sel w) (last w ([], Leaf [])) = Ok l) ->
    exists ts, walk 0 (repeat [] k) es = Ok ts.
  Proof.
    intros Hl H. apply (walk_succeeds es [] Hl). intros p e q -> Hp. cbn [app] in *.
    assert (Hk : (k <= length (p ++ [e]))%nat) by (rewrite app_length; cbn; lia).
    destruct (lastn_split k (p ++ [e]) Hk) as (a & Ea & La). set (w := lastn k (p ++ [e])) in *.
    assert (Lw : last w ([], Leaf []) = e).
    { assert (X : last (p ++ [e]) ([], Leaf []) = e) by apply last_last. rewrite Ea in X.
      destruct w as [|w0 w] using rev_ind; [cbn in La; lia|]. rewrite app_assoc, last_last in X. rewrite last_last. exact X. }
    destruct (H w) as (l & El).
    { apply windows_in; auto. exists a, q. split; auto. rewrite app_assoc, <- Ea, <- app_assoc. reflexivity. }
    rewrite Lw in El. exists l. rewrite Ea, map_app, lastn_app by (rewrite map_length; exact La). exact El.
  Qed.
End Walk.

Definition emit_key (parts : list token) (_ : token * rval) : outcome (list token) := obind (joined parts) (fun s => Ok [s]).
Definition emit_value (keys : bool) (k : nat) (parts : list token) (e : token * rval) : outcome (list token) :=
  match snd e with
  | Sub _ _ => tree_tokens keys k (snd e)
  | Leaf _ => obind (joined parts) (fun s => Ok [s])
  end.

Lemma key_walk k es : forall i parts, key_tokens k i parts es = walk k fst emit_key i parts es.
Proof.
  induction es as [|(ks, v) es IH]; intros i parts; [reflexivity|]. cbn [key_tokens walk fst]. rewrite IH.
  unfold emit_key. destruct (_ <=? i); [|reflexivity]. destruct (joined _); reflexivity.
Qed.

Lemma tree_walk keys k s es : tree_tokens keys k (Sub s es) =
  let k := local_shingle k es in
  obind (if keys then walk k fst emit_key 0 (repeat [] k) es else Ok []) (fun a =>
  obind (walk k (fun e => rendering (snd e)) (emit_value keys k) 0 (repeat [] k) es) (fun b => Ok (a ++ b))).
Proof.
  cbn [tree_tokens]. cbv zeta. rewrite key_walk. set (n := local_shingle k es). clearbody n.
  assert (E : forall es i parts, value_tokens (tree_tokens keys n) n i parts es = walk n (fun e => rendering (snd e)) (emit_value keys n) i parts es).
  { induction es0 as [|(ks, v) es0 IH]; intros i0 parts0; [reflexivity|]. cbn [walk value_tokens snd]. rewrite IH.
    unfold emit_value at 2. cbn [snd]. reflexivity. }
  rewrite E. reflexivity.
Qed.

Lemma windows_map {A B} (f : A -> B) k l : windows k (map f l) = map (map f) (windows k l).
Proof.
  induction l as [|x l IH]; [reflexivity|]. cbn [windows map]. cbn [length]. rewrite map_length.
  destruct (_ <? _)%nat; [reflexivity|]. cbn [map]. f_equal; auto.
  change (f x :: map f l) with (map f (x :: l)). apply firstn_map.
Qed.

Lemma last_map {A B} (f : A -> B) l d : l <> [] -> last (map f l) (f d) = f (last l d).
Proof. induction l as [|x [|y l] IH]; intros H; [congruence|reflexivity|]. cbn [map last] in *. apply IH. discriminate. Qed.

Lemma windows_length {A} k (l w : list A) : (1 <= k)%nat -> In w (windows k l) -> length w = k.
Proof. intros H Hw. apply windows_in in Hw; auto. destruct Hw as (_ & _ & _ & L). exact L. Qed.

Lemma rval_induction (P : rval -> Prop) :
  (forall s, P (Leaf s)) -> (forall s es, (forall e, In e es -> P (snd e)) -> P (Sub s es)) -> forall v, P v.
Proof.
  intros HL HS. fix rec 1. intros [s|s es]; [apply HL|]. apply HS.
  induction es as [|e es IH]; [intros ? []|]. intros e' [<-|H]; [destruct e as (ks, v); apply (rec v)|exact (IH e' H)].
Qed.

Lemma moderate_in s es : moderate (Sub s es) -> Z.of_nat (length es) < 65536 /\ forall e, In e es -> moderate (snd e).
Proof.
  intros (H & A). split; auto. clear H. induction es as [|(ks, v) es IH]; [intros ? []|]. destruct A as (A1 & A2).
  intros e [<-|He]; [exact A1|auto].
Qed.

Lemma tokens_sound keys : forall v k s es ts, v = Sub s es -> moderate v -> (1 <= k)%nat -> tree_tokens keys k v = Ok ts ->
  forall t, In t ts <-> token_of keys k es t.
Proof.
  intros v. induction v as [s0|s0 es0 IH] using rval_induction; intros k s es ts Ev M Hk E t; [discriminate|].
  injection Ev as <- <-. apply moderate_in in M. destruct M as (Hl & Hm). rewrite tree_walk in E. cbv zeta in E.
  destruct es0 as [|e0 es1].
  { assert (ts = []). { destruct keys; cbn in E; congruence. }
    subst ts. split; [intros []|]. intros T. inversion T; subst; cbn in *; contradiction. }
  set (es := e0 :: es1) in *. set (n := local_shingle k es) in *.
  assert (Hn : (1 <= n)%nat) by (unfold n, local_shingle; cbn [es length]; lia).
  assert (NE : forall w, In w (windows n es) -> w <> []).
  { intros w Hw Ew. apply windows_length in Hw; auto. rewrite Ew in Hw. cbn in Hw. lia. }
  destruct (if keys then walk n fst emit_key 0 (repeat [] n) es else Ok []) as [a| |] eqn:Ea; try discriminate. cbn [obind] in E.
  destruct (walk n (fun e => rendering (snd e)) (emit_value keys n) 0 (repeat [] n) es) as [b| |] eqn:Eb; try discriminate.
  cbn [obind] in E. injection E as <-. rewrite in_app_iff.
  rewrite (walk_windows n _ _ Hn es b Hl Eb t).
  assert (Ja : forall w l, obind (joined w) (fun s => Ok [s]) = Ok l -> l = [concat w]).
  { intros w l. unfold joined. destruct (_ <? 512); cbn [obind]; congruence. }
  split.
  - intros [Ha|(w & l & Hw & Em & Ht)].
    + destruct keys; [|injection Ea as <-; destruct Ha].
      apply (walk_windows n _ _ Hn es a Hl Ea t) in Ha. destruct Ha as (w & l & Hw & Em & Ht).
      unfold emit_key in Em. apply Ja in Em. subst l. destruct Ht as [<-|[]].
      apply tok_key; auto. fold n. rewrite windows_map. apply in_map. exact Hw.
    + assert (Lm : last (map snd w) (Leaf []) = snd (last w ([], Leaf []))) by (apply (last_map snd w ([], Leaf [])); auto).
      unfold emit_value in Em. destruct (snd (last w ([], Leaf []))) as [sv|sv sub] eqn:Ev.
      * apply Ja in Em. subst l. destruct Ht as [<-|[]]. rewrite <- (map_map snd rendering).
        apply (tok_value keys k es (map snd w) sv); [fold n; rewrite windows_map; apply in_map; exact Hw|congruence].
      * apply (tok_sub keys k es (map snd w) sv sub t); [fold n; rewrite windows_map; apply in_map; exact Hw|congruence|]. fold n.
        assert (Hin : In (last w ([], Leaf [])) es).
        { apply windows_in in Hw; auto. destruct Hw as (p & q & -> & Lw). destruct w as [|e w _] using rev_ind; [cbn in Lw; lia|].
          rewrite last_last. apply in_or_app. right. apply in_or_app. left. apply in_or_app. right. left. reflexivity. }
        apply (IH _ Hin n sv sub l Ev); auto. rewrite Ev. exact Em.
  - intros T. inversion T as [k' es' w Hkeys Hw E1 E2 E3|k' es' w sv Hw Lw E1 E2 E3|k' es' w sv sub t' Hw Lw Ht E1 E2 E3]; subst k' es'.
    + left. subst t. rewrite Hkeys in Ea. apply (walk_windows n _ _ Hn es a Hl Ea (concat w)). fold n in Hw. rewrite windows_map in Hw.
      apply in_map_iff in Hw. destruct Hw as (w0 & <- & Hw). exists w0, [concat (map fst w0)]. split; auto. split; [|left; auto].
      destruct (windows_emit n _ _ Hn es a Hl Ea w0 Hw) as (l & El). rewrite El. unfold emit_key in El. apply Ja in El. congruence.
    + right. subst t. fold n in Hw. rewrite windows_map in Hw. apply in_map_iff in Hw. destruct Hw as (w0 & <- & Hw).
      exists w0. destruct (windows_emit n _ _ Hn es b Hl Eb w0 Hw) as (l & El). exists l. split; auto. split; auto.
      pose proof (last_map snd w0 ([], Leaf []) (NE w0 Hw)) as Lm. cbn [snd] in Lm. rewrite Lm in Lw. unfold emit_value in El. rewrite Lw in El. apply Ja in El. subst l.
      left. rewrite map_map. reflexivity.
    + right. subst t'. fold n in Hw. rewrite windows_map in Hw. apply in_map_iff in Hw. destruct Hw as (w0 & <- & Hw).
      exists w0. destruct (windows_emit n _ _ Hn es b Hl Eb w0 Hw) as (l & El). exists l. split; auto. split; auto.
      pose proof (last_map snd w0 ([], Leaf []) (NE w0 Hw)) as Lm. cbn [snd] in Lm. rewrite Lm in Lw. unfold emit_value in El. rewrite Lw in El.
      assert (Hin : In (last w0 ([], Leaf [])) es).
      { apply windows_in in Hw; auto. destruct Hw as (p & q & -> & Lw0). destruct w0 as [|e w0 _] using rev_ind; [cbn in Lw0; lia|].
        rewrite last_last. apply in_or_app. right. apply in_or_app. left. apply in_or_app. right. left. reflexivity. }
      apply (IH _ Hin n sv sub l Lw); auto. rewrite Lw. exact El.
Qed.

Lemma tokens_succeed keys : forall v k s es, v = Sub s es -> moderate v -> (1 <= k)%nat ->
  (forall t, token_of keys k es t -> Z.of_nat (length t) < 512) -> exists ts, tree_tokens keys k v = Ok ts.
Proof.
  intros v. induction v as [s0|s0 es0 IH] using rval_induction; intros k s es Ev M Hk H; [discriminate|].
  injection Ev as <- <-. apply moderate_in in M. destruct M as (Hl & Hm). rewrite tree_walk. cbv zeta.
  destruct es0 as [|e0 es1]; [destruct keys; cbn; eauto|].
  set (es := e0 :: es1) in *. set (n := local_shingle k es) in *.
  assert (Hn : (1 <= n)%nat) by (unfold n, local_shingle; cbn [es length]; lia).
  assert (NE : forall w, In w (windows n es) -> w <> []).
  { intros w Hw Ew. apply windows_length in Hw; auto. rewrite Ew in Hw. cbn in Hw. lia. }
  assert (A : exists a, (if keys then walk n fst emit_key 0 (repeat [] n) es else Ok []) = Ok a).
  { destruct keys eqn:Ek; [|eauto]. apply windows_succeed; auto. intros w Hw. unfold emit_key, joined.
    replace (_ <? 512) with true; [cbn; eauto|]. symmetry. apply Z.ltb_lt. apply H. apply tok_key; auto. fold n. rewrite windows_map. apply in_map. exact Hw. }
  destruct A as (a & ->). cbn [obind].
  assert (B : exists b, walk n (fun e => rendering (snd e)) (emit_value keys n) 0 (repeat [] n) es = Ok b).
  { apply windows_succeed; auto. intros w Hw. unfold emit_value.
    pose proof (last_map snd w ([], Leaf []) (NE w Hw)) as Lm. cbn [snd] in Lm.
    assert (Hws : In (map snd w) (windows (local_shingle k es) (map snd es))) by (fold n; rewrite windows_map; apply in_map; exact Hw).
    destruct (snd (last w ([], Leaf []))) as [sv|sv sub] eqn:Ev.
    - unfold joined. replace (_ <? 512) with true; [cbn; eauto|]. symmetry. apply Z.ltb_lt. rewrite <- (map_map snd rendering). apply H.
      eapply tok_value; eauto.
    - assert (Hin : In (last w ([], Leaf [])) es).
      { apply windows_in in Hw; auto. destruct Hw as (p & q & -> & Lw). destruct w as [|e w _] using rev_ind; [cbn in Lw; lia|].
        rewrite last_last. apply in_or_app. right. apply in_or_app. left. apply in_or_app. right. left. reflexivity. }
      rewrite <- Ev. apply (IH _ Hin n sv sub Ev); auto. intros t Ht. apply H. eapply tok_sub; eauto. }
  destruct B as (b & ->). cbn. eauto.
Qed.
