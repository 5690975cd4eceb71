(** The generic tree refines a finite map, for keys of one kind. *)
From Verif Require Import Base Dhkey_Model Dhkey_Spec Dhkey_Proofs Rbtree_Model Rbtree_Spec Rbtree_Proofs Tree_Model Tree_Spec.

(** ** Lexicographic order on lists of numbers *)
Fixpoint lexc (a b : list Z) : comparison :=
  match a, b with
  | [], [] => Eq
  | [], _ :: _ => Lt
  | _ :: _, [] => Gt
  | x :: a', y :: b' => match x ?= y with Eq => lexc a' b' | c => c end
  end.
Lemma lexc_order : total_order lexc.
Proof.
  split.
  - induction x as [|a x IH]; intros [|b y]; cbn; split; try discriminate; try reflexivity.
    + destruct (a ?= b) eqn:E; try discriminate. apply Z.compare_eq in E. subst. intros H. apply IH in H. subst. reflexivity.
    + intros H; injection H as -> ->. rewrite Z.compare_refl. apply IH. reflexivity.
  - induction x as [|a x IH]; intros [|b y]; cbn; auto. rewrite (Z.compare_antisym a b). destruct (a ?= b); cbn; auto.
  - induction x as [|a x IH]; intros [|b y] [|c z]; cbn; try discriminate; auto.
    destruct (Z.compare_spec a b) as [->|L|L], (Z.compare_spec b c) as [->|L'|L']; try discriminate; intros H1 H2;
      rewrite ?Z.compare_refl.
    + eapply IH; eauto.
    + destruct (Z.compare_spec b c); auto; lia.
    + destruct (Z.compare_spec a c); auto; lia.
    + destruct (Z.compare_spec a c); auto; lia.
Qed.

(** ** Keys of one kind are ordered by their content *)
Definition ord (u : ukey) : list Z :=
  match u with
  | UStr s => s
  | UInt i => [i]
  | UDbl (Some d) => [d]
  | UDbl None => []
  | UUlong i => [i]
  | UDhkey k => k
  | UUuid b => b
  end.

Lemma ord_inj K u w : of_kind K u -> of_kind K w -> ord u = ord w -> u = w.
Proof.
  destruct K, u as [| |[]| | |], w as [| |[]| | |]; cbn; try contradiction; intros _ _ H; congruence.
Qed.

Lemma stored_back K u : of_kind K u -> key_back (stored_key u) = u.
Proof.
  destruct K, u; cbn [of_kind stored_key key_back]; try contradiction; auto. intros [_ L]. rewrite firstn_all2 by lia. reflexivity.
Qed.
Lemma search_back u : key_back (search_key u) = u.
Proof. destruct u; reflexivity. Qed.

Definition signs (z : Z) (c : comparison) : Prop := (z < 0 <-> c = Lt) /\ (z = 0 <-> c = Eq).

Lemma s16_small x : -32768 <= x < 32768 -> s16 x = x.
Proof. unfold s16, u16. intros H. destruct (x mod 65536 <? 32768) eqn:E; Z.to_euclidean_division_equations; lia. Qed.

Lemma strncmp_sign n : forall a b, Forall (fun x => 1 <= x <= 255) a -> Forall (fun x => 1 <= x <= 255) b ->
  (length a < n \/ length b < n)%nat -> signs (strncmp n a b) (lexc a b) /\ -255 <= strncmp n a b <= 255.
Proof.
  unfold signs. induction n as [|n IH]; intros a b Fa Fb L; [lia|]. cbn [strncmp].
  destruct a as [|x a], b as [|y b]; cbn [hd tl lexc].
  - cbn. split; [split; split; auto; discriminate|lia].
  - inversion Fb; subst. destruct (Z.eqb_spec 0 y); [lia|]. split; [split; split; try discriminate; try lia; auto|lia].
  - inversion Fa; subst. destruct (Z.eqb_spec x 0); [lia|]. split; [split; split; try discriminate; lia|lia].
  - inversion Fa as [|? ? Hx Fa']; inversion Fb as [|? ? Hy Fb']; subst. destruct (Z.eqb_spec x y) as [->|N].
    + destruct (Z.eqb_spec y 0); [lia|]. rewrite Z.compare_refl. apply IH; auto. cbn in L. lia.
    + destruct (Z.compare_spec x y); [lia| |]; (split; [split; split; try discriminate; try lia; auto|lia]).
Qed.

Lemma memcmp_sign : forall a b, length a = length b -> Forall (fun x => 0 <= x <= 255) a -> Forall (fun x => 0 <= x <= 255) b ->
  signs (memcmp a b) (lexc a b) /\ -255 <= memcmp a b <= 255.
Proof.
  unfold signs. induction a as [|x a IH]; intros [|y b] L Fa Fb; try discriminate; cbn [memcmp lexc].
  - split; [split; split; auto; discriminate|lia].
  - inversion Fa as [|? ? Hx Fa']; inversion Fb as [|? ? Hy Fb']; subst. destruct (Z.eqb_spec x y) as [->|N].
    + rewrite Z.compare_refl. apply IH; auto.
    + destruct (Z.compare_spec x y); [lia| |]; (split; [split; split; try discriminate; try lia; auto|lia]).
Qed.

Lemma dhkey_sign : forall a b, length a = length b -> signs (np_dhkey_cmp_loop a b) (lexc a b).
Proof.
  unfold signs. induction a as [|x a IH]; intros [|y b] L; try discriminate; cbn [np_dhkey_cmp_loop lexc].
  - split; split; auto; discriminate.
  - rewrite Z.gtb_ltb. destruct (y <? x) eqn:E1.
    + destruct (Z.compare_spec x y); [lia|lia|]. split; split; try discriminate; lia.
    + destruct (x <? y) eqn:E2.
      * destruct (Z.compare_spec x y); [lia| |lia]. split; split; try discriminate; auto; lia.
      * destruct (Z.compare_spec x y); [|lia|lia]. apply IH. cbn in L. congruence.
Qed.

(** A search or stored key against a stored key *)
Lemma key_cmp_sign K u w k : of_kind K u -> of_kind K w -> k = search_key u \/ k = stored_key u ->
  signs (key_cmp k (stored_key w)) (lexc (ord u) (ord w)).
Proof.
  destruct K, u as [us|ui|[ud|]|uu|uk|ub], w as [ws|wi|[wd|]|wu|wk|wb]; cbn [of_kind]; try contradiction; intros Hu Hw Hk.
  - (* strings *)
    destruct Hu as [Fu Lu], Hw as [Fw Lw]. cbn [stored_key search_key ord] in *. rewrite (firstn_all2 ws) by lia.
    rewrite (firstn_all2 us) in Hk by lia. destruct Hk as [-> | ->]; cbn [key_cmp].
    + destruct (0 >? Z.of_nat (length ws)) eqn:E; [lia|].
      destruct (strncmp_sign (Z.to_nat (Z.of_nat (length ws) + 1)) us ws Fu Fw) as [S1 S2]; [lia|]. rewrite s16_small by lia. exact S1.
    + destruct (Z.of_nat (length us) >? Z.of_nat (length ws)) eqn:E.
      * destruct (strncmp_sign (Z.to_nat (Z.of_nat (length us) + 1)) us ws Fu Fw) as [S1 S2]; [lia|]. rewrite s16_small by lia. exact S1.
      * destruct (strncmp_sign (Z.to_nat (Z.of_nat (length ws) + 1)) us ws Fu Fw) as [S1 S2]; [lia|]. rewrite s16_small by lia. exact S1.
  - cbn [stored_key search_key] in *. assert (k = KOther (UDbl (Some ud))) as -> by (destruct Hk; auto). cbn. unfold signs.
    destruct (ud <? wd) eqn:E1; destruct (Z.compare_spec ud wd); try lia; [split; split; auto; try discriminate; lia| |];
      destruct (wd <? ud) eqn:E2; try lia; split; split; auto; try discriminate; lia.
  - cbn [stored_key search_key] in *. assert (k = KOther (UDhkey uk)) as -> by (destruct Hk; auto).
    apply dhkey_sign. destruct Hu as [Lu _], Hw as [Lw _]. exact (eq_trans Lu (eq_sym Lw)).
  - cbn [stored_key search_key] in *. assert (k = KOther (UUuid ub)) as -> by (destruct Hk; auto). cbn [key_cmp ord].
    destruct Hu as [Lu Fu], Hw as [Lw Fw]. destruct (memcmp_sign ub wb) as [S1 S2]; [congruence|auto|auto|].
    rewrite s16_small by lia. exact S1.
  - cbn [stored_key search_key] in *. assert (k = KOther (UInt ui)) as -> by (destruct Hk; auto). cbn [key_cmp ord lexc].
    rewrite s16_small by lia. unfold signs. destruct (Z.compare_spec ui wi); split; split; auto; try discriminate; lia.
  - cbn [stored_key search_key] in *. assert (k = KOther (UUlong uu)) as -> by (destruct Hk; auto). cbn [key_cmp ord lexc].
    assert (E : s16 (u32 (uu - wu)) = uu - wu).
    { rewrite <- (s16_small (uu - wu)) at 2 by lia. unfold s16, u32, u16.
      rewrite <- (Znumtheory.Zmod_div_mod 65536 4294967296) by (try lia; exists 65536; reflexivity). reflexivity. }
    rewrite E. unfold signs. destruct (Z.compare_spec uu wu); split; split; auto; try discriminate; lia.
Qed.

Section Map.
Context {V : Type} (undefined : V) (key_size : tkey -> Z) (val_size : V -> Z).
Notation elem := (@elem V).
Notation op := (@op V).
Notation np_tree := (@np_tree V).
Notation esize := (elem_size key_size val_size).
Implicit Types (e : elem) (l : list elem) (t : np_tree) (m : ukey -> option V).

Definition val e : list Z := ord (key_back (fst e)).

Definition stored_elem (K : kind) e : Prop := exists u, of_kind K u /\ fst e = stored_key u.
Notation srt := (sorted lexc val).

Definition total l : Z := fold_right (fun e s => esize e + s) 0 l.
Lemma total_app l1 l2 : total (l1 ++ l2) = total l1 + total l2.
Proof. induction l1 as [|a l1 IH]; [reflexivity|]. cbn [app total fold_right]. fold (total (l1 ++ l2)) (total l1). lia. Qed.

Record Inv (K : kind) m t : Prop := {
  inv_proper : proper (root t);
  inv_stored : Forall (stored_elem K) (elements (root t));
  inv_sorted : srt (elements (root t));
  inv_map : forall u v, of_kind K u -> (m u = Some v <-> In (stored_key u, v) (elements (root t)));
  inv_count : count t = u64 (Z.of_nat (length (elements (root t))));
  inv_bytes : bytes t = u64 (total (elements (root t)));
  inv_mutable : immutable t = false }.

Lemma stored_val K u e : of_kind K u -> stored_elem K e -> val e = ord u -> fst e = stored_key u.
Proof.
  intros Hu (w & Hw & E) H. unfold val in H. rewrite E, (stored_back K w Hw) in H. rewrite E.
  f_equal. apply (ord_inj K); auto.
Qed.

Lemma agree K u k l : of_kind K u -> fst k = search_key u \/ fst k = stored_key u -> Forall (stored_elem K) l ->
  Forall (agrees lexc elem_cmp val k) l /\ val k = ord u.
Proof.
  intros Hu Hk F. assert (Ev : val k = ord u).
  { unfold val. destruct Hk as [-> | ->]; [rewrite search_back|rewrite (stored_back K) by auto]; reflexivity. }
  split; [|exact Ev]. eapply Forall_impl; [|exact F]. intros e (w & Hw & E). unfold agrees, elem_cmp. rewrite Ev.
  unfold val. rewrite E, (stored_back K w Hw). apply (key_cmp_sign K); auto.
Qed.

Lemma lt_neq (a b : list Z) : lexc a b = Lt -> a <> b.
Proof. intros H ->. rewrite (proj2 (ord_eq _ lexc_order b b) eq_refl) in H. discriminate. Qed.

(** What a search ends with *)
Lemma locate K u k (r : tree elem) : of_kind K u -> fst k = search_key u \/ fst k = stored_key u ->
  Forall (stored_elem K) (elements r) -> srt (elements r) ->
  match descend elem_cmp k r [] with
  | (q, Leaf) => exists A B, elements r = A ++ B /\ before q = A /\ after q = B /\
      (forall x, In x A -> lexc (val x) (ord u) = Lt) /\ (forall x, In x B -> lexc (ord u) (val x) = Lt)
  | (q, Node c l x r') => exists A B, elements r = A ++ x :: B /\ A = before q ++ elements l /\ B = elements r' ++ after q /\
      fst x = stored_key u
  end.
Proof.
  intros Hu Hk F S. destruct (agree K u k _ Hu Hk F) as [Ag Ev].
  destruct (descend elem_cmp k r []) as [q s] eqn:E.
  destruct (descend_split lexc lexc_order elem_cmp val k r q s E Ag S) as (lo & hi & Hlo & Hhi & El & H1 & H2 & H3).
  rewrite Ev in *. destruct s as [|c l x r'].
  - exists lo, hi. auto 10.
  - exists (before q ++ elements l), (elements r' ++ after q). rewrite Hlo, Hhi. split.
    + rewrite El. cbn. rewrite <- !app_assoc. reflexivity.
    + split; [reflexivity|]. split; [reflexivity|]. apply (stored_val K); auto.
      rewrite El in F. apply Forall_app in F as [_ F]. apply Forall_app in F as [F _]. cbn in F.
      apply Forall_app in F as [_ F]. inversion F; auto.
Qed.

Lemma find_spec K m t u : Inv K m t -> of_kind K u ->
  np_tree_find undefined u t = match m u with Some v => Some (stored_key u, v) | None => None end.
Proof.
  intros I Hu. unfold np_tree_find, find.
  pose proof (locate K u (search undefined u) (root t) Hu (or_introl eq_refl) (inv_stored _ _ _ I) (inv_sorted _ _ _ I)) as L.
  destruct (descend elem_cmp (search undefined u) (root t) []) as [q [|c l x r']]; cbn [snd].
  - destruct L as (A & B & El & _ & _ & HA & HB). destruct (m u) as [v|] eqn:E; [|reflexivity]. exfalso.
    apply (inv_map _ _ _ I u v Hu) in E. rewrite El in E.
    assert (Ev : val (stored_key u, v) = ord u) by (unfold val; cbn; rewrite (stored_back K) by auto; reflexivity).
    apply in_app_or in E as [E|E]; [apply HA in E|apply HB in E]; rewrite Ev in E; apply lt_neq in E; congruence.
  - destruct L as (A & B & El & _ & _ & Ex). destruct x as [xk v]. cbn in Ex. subst xk.
    assert (m u = Some v) as ->; [|reflexivity].
    apply (inv_map _ _ _ I u v Hu). rewrite El. apply in_or_app. right. left. reflexivity.
Qed.

Lemma srt_insert A B e : srt (A ++ B) -> (forall x, In x A -> lexc (val x) (val e) = Lt) ->
  (forall x, In x B -> lexc (val e) (val x) = Lt) -> srt (A ++ e :: B).
Proof.
  intros S HA HB. apply sorted_app in S as (S1 & S2 & S3). apply sorted_app. split; [exact S1|]. split.
  - constructor; [exact S2|]. apply Forall_forall. exact HB.
  - intros x y Hx [<-|Hy]; auto.
Qed.
Lemma srt_remove A B e : srt (A ++ e :: B) -> srt (A ++ B).
Proof.
  intros S. apply sorted_app in S as (S1 & S2 & S3). inversion S2; subst. apply sorted_app. split; [exact S1|].
  split; [assumption|]. intros x y Hx Hy. apply S3; [exact Hx|right; exact Hy].
Qed.
Lemma srt_swap A B e e' : val e' = val e -> srt (A ++ e :: B) -> srt (A ++ e' :: B).
Proof.
  intros Ev S. apply sorted_app in S as (S1 & S2 & S3). inversion S2 as [|? ? S4 F]; subst. apply sorted_app.
  split; [exact S1|]. split.
  - constructor; [exact S4|]. rewrite Ev. exact F.
  - intros x y Hx [<-|Hy]; [rewrite Ev; apply S3; [exact Hx|left; reflexivity]|apply S3; [exact Hx|right; exact Hy]].
Qed.

(** Different values at different places *)
Lemma srt_once A B e x : srt (A ++ e :: B) -> In x (A ++ B) -> val x <> val e.
Proof.
  intros S Hx. apply sorted_app in S as (S1 & S2 & S3). inversion S2 as [|? ? S4 F]; subst. rewrite Forall_forall in F.
  apply in_app_or in Hx as [Hx|Hx].
  - apply lt_neq. apply S3; [exact Hx|left; reflexivity].
  - intros E. symmetry in E. revert E. apply lt_neq. auto.
Qed.

Lemma sval K u v : of_kind K u -> val (stored_key u, v) = ord u.
Proof. intros Hu. unfold val. cbn. rewrite (stored_back K) by auto. reflexivity. Qed.

Lemma u64_plus a b : u64 (u64 a + b) = u64 (a + b).
Proof. unfold u64. apply Zplus_mod_idemp_l. Qed.
Lemma u64_minus a b : u64 (u64 a - b) = u64 (a - b).
Proof. unfold u64. apply Zminus_mod_idemp_l. Qed.

Lemma insert_new K m t u v : Inv K m t -> of_kind K u -> m u = None ->
  exists t', np_tree_insert_element key_size val_size (stored_key u, v) t = Ok t' /\
    Inv K (fun k => if ukey_eq_dec k u then Some v else m k) t'.
Proof.
  intros I Hu Hm. unfold np_tree_insert_element. rewrite (inv_mutable _ _ _ I).
  set (e := (stored_key u, v) : elem).
  destruct (insert_proper elem_cmp e (root t) (inv_proper _ _ _ I)) as (r' & o & E & Pr). rewrite E. cbn [obind fst].
  eexists. split; [reflexivity|].
  pose proof (locate K u e (root t) Hu (or_intror eq_refl) (inv_stored _ _ _ I) (inv_sorted _ _ _ I)) as L.
  unfold insert in E. destruct (descend elem_cmp e (root t) []) as [q [|c l x r0]].
  2:{ exfalso. destruct L as (A & B & El & _ & _ & Ex). destruct x as [xk w]. cbn in Ex. subst xk.
      assert (m u = Some w) by (apply (inv_map _ _ _ I u w Hu); rewrite El; apply in_or_app; right; left; reflexivity).
      congruence. }
  destruct L as (A & B & El & HAq & HBq & HA & HB).
  destruct (insert_color q (Node Red Leaf e Leaf)) as [r1| |] eqn:Ec; try discriminate. cbn in E. injection E as -> <-.
  apply insert_color_elements in Ec. cbn in Ec. rewrite HAq, HBq in Ec.
  assert (Ev : val e = ord u) by (apply (sval K); auto).
  assert (So : srt (A ++ e :: B)).
  { apply srt_insert; [rewrite <- El; apply (inv_sorted _ _ _ I)| |]; intros x Hx; rewrite Ev; auto. }
  split; cbn [root count bytes immutable].
  - exact Pr.
  - rewrite Ec. pose proof (inv_stored _ _ _ I) as F. rewrite El in F. apply Forall_app in F as [F1 F2].
    apply Forall_app. split; [exact F1|]. constructor; [exists u; auto|exact F2].
  - rewrite Ec. exact So.
  - intros k w Hk. rewrite Ec. destruct (ukey_eq_dec k u) as [->|N].
    + split.
      * intros H; injection H as <-. apply in_or_app. right. left. reflexivity.
      * intros H. apply in_app_or in H as [H|[H|H]]; [| |].
        -- exfalso. apply HA in H. rewrite (sval K) in H by auto. apply lt_neq in H. congruence.
        -- unfold e in H. congruence.
        -- exfalso. apply HB in H. rewrite (sval K) in H by auto. apply lt_neq in H. congruence.
    + rewrite (inv_map _ _ _ I k w Hk), El. split; intros H.
      * apply in_app_or in H. apply in_or_app. cbn. tauto.
      * apply in_app_or in H as [H|[H|H]]; [apply in_or_app; auto| |apply in_or_app; auto].
        exfalso. unfold e in H. injection H as H1 H2. apply N. rewrite <- (stored_back K k Hk), <- (stored_back K u Hu), H1. reflexivity.
  - rewrite Ec, (inv_count _ _ _ I), El, !app_length, u64_plus. cbn [length]. f_equal. lia.
  - rewrite Ec, (inv_bytes _ _ _ I), El, u64_plus, !total_app. cbn [total fold_right]. f_equal. fold (total B). lia.
  - reflexivity.
Qed.

Lemma insert_step K m t u v : Inv K m t -> of_kind K u ->
  exists t', np_tree_insert undefined key_size val_size u v t = Ok t' /\
    Inv K (fun k => if ukey_eq_dec k u then match m k with Some w => Some w | None => Some v end else m k) t'.
Proof.
  intros I Hu. unfold np_tree_insert. rewrite (find_spec K m t u I Hu). destruct (m u) as [w|] eqn:E.
  - exists t. split; [reflexivity|]. destruct I as [I1 I2 I3 I4 I5 I6 I7]. split; auto.
    intros k x Hk. rewrite <- I4 by auto. destruct (ukey_eq_dec k u) as [->|N]; [rewrite E|]; tauto.
  - destruct (insert_new K m t u v I Hu E) as (t' & Et & I'). exists t'. split; [exact Et|].
    destruct I' as [I1 I2 I3 I4 I5 I6 I7]. split; auto. intros k x Hk. rewrite <- I4 by auto.
    destruct (ukey_eq_dec k u) as [->|N]; [rewrite E|]; tauto.
Qed.

Lemma replace_step K m t u v : Inv K m t -> of_kind K u ->
  exists t', np_tree_replace undefined key_size val_size u v t = Ok t' /\
    Inv K (fun k => if ukey_eq_dec k u then Some v else m k) t'.
Proof.
  intros I Hu. unfold np_tree_replace. rewrite (find_spec K m t u I Hu). destruct (m u) as [w|] eqn:E.
  2:{ destruct (insert_step K m t u v I Hu) as (t' & Et & I'). exists t'. split; [exact Et|].
      destruct I' as [I1 I2 I3 I4 I5 I6 I7]. split; auto. intros k x Hk. rewrite <- I4 by auto.
      destruct (ukey_eq_dec k u) as [->|N]; [rewrite E|]; tauto. }
  rewrite (inv_mutable _ _ _ I). eexists. split; [reflexivity|].
  set (k0 := search undefined u). set (f := fun e : elem => (fst e, v)).
  pose proof (find_update_proper elem_cmp k0 f (root t) (inv_proper _ _ _ I)) as Pr.
  pose proof (locate K u k0 (root t) Hu (or_introl eq_refl) (inv_stored _ _ _ I) (inv_sorted _ _ _ I)) as L.
  pose proof (find_spec K m t u I Hu) as Fs. rewrite E in Fs. unfold np_tree_find, find in Fs. fold k0 in Fs.
  unfold find_update in *. destruct (descend elem_cmp k0 (root t) []) as [q [|c l x r0]]; [discriminate Fs|].
  cbn [snd] in Fs. injection Fs as ->. destruct L as (A & B & El & HA & HB & _). cbn [fst] in *.
  assert (Ee : elements (plug q (Node c l (f (stored_key u, w)) r0)) = A ++ (stored_key u, v) :: B).
  { rewrite elements_plug. cbn. rewrite HA, HB, <- !app_assoc. reflexivity. }
  pose proof (inv_sorted _ _ _ I) as So. rewrite El in So.
  split; cbn [root count bytes immutable]; fold f.
  - exact Pr.
  - rewrite Ee. pose proof (inv_stored _ _ _ I) as F. rewrite El in F. apply Forall_app in F as [F1 F2]. inversion F2; subst.
    apply Forall_app. split; [exact F1|]. constructor; [exists u; auto|assumption].
  - rewrite Ee. eapply srt_swap; [|exact So]. rewrite !(sval K) by auto. reflexivity.
  - intros k y Hk. rewrite Ee. destruct (ukey_eq_dec k u) as [->|N].
    + split.
      * intros H; injection H as <-. apply in_or_app. right. left. reflexivity.
      * intros H. apply in_app_or in H as [H|[H|H]]; [exfalso|congruence|exfalso];
          (eapply (srt_once A B); [exact So|apply in_or_app; eauto|]); rewrite !(sval K) by auto; reflexivity.
    + rewrite (inv_map _ _ _ I k y Hk), El. split; intros H; apply in_app_or in H as [H|[H|H]]; apply in_or_app; cbn; auto;
        exfalso; injection H as H1 H2; apply N; rewrite <- (stored_back K k Hk), <- (stored_back K u Hu), H1; reflexivity.
  - rewrite Ee, (inv_count _ _ _ I), El, !app_length. reflexivity.
  - rewrite Ee, (inv_bytes _ _ _ I), El, u64_minus, u64_plus, !total_app. cbn [total fold_right]. f_equal. fold (total B). cbn [fst]. lia.
  - reflexivity.
Qed.

Lemma delete_step K m t u : Inv K m t -> of_kind K u ->
  exists t', np_tree_del undefined key_size val_size u t = Ok t' /\
    Inv K (fun k => if ukey_eq_dec k u then None else m k) t'.
Proof.
  intros I Hu. unfold np_tree_del. rewrite (inv_mutable _ _ _ I). set (k0 := search undefined u).
  destruct (find_remove_proper elem_cmp k0 (root t) (inv_proper _ _ _ I)) as (r' & o & E & Pr). rewrite E. cbn [obind].
  pose proof (locate K u k0 (root t) Hu (or_introl eq_refl) (inv_stored _ _ _ I) (inv_sorted _ _ _ I)) as L.
  pose proof (find_spec K m t u I Hu) as Fs. unfold np_tree_find, find in Fs. fold k0 in Fs.
  unfold find_remove in E. destruct (descend elem_cmp k0 (root t) []) as [q [|c l x r0]]; cbn [snd] in Fs.
  - injection E as <- <-. exists t. split; [reflexivity|]. destruct I as [I1 I2 I3 I4 I5 I6 I7]. split; auto.
    intros k x Hk. rewrite <- I4 by auto. destruct (ukey_eq_dec k u) as [->|N]; [|tauto].
    destruct (m u); [discriminate Fs|]. split; discriminate.
  - destruct (remove_node q c l r0) as [r1| |] eqn:Er; try discriminate. cbn in E. injection E as -> <-.
    eexists. split; [reflexivity|]. destruct L as (A & B & El & HA & HB & Ex).
    apply remove_node_elements in Er. assert (Ee : elements r' = A ++ B) by (rewrite Er, HA, HB, <- !app_assoc; reflexivity).
    pose proof (inv_sorted _ _ _ I) as So. rewrite El in So.
    split; cbn [root count bytes immutable].
    + exact Pr.
    + rewrite Ee. pose proof (inv_stored _ _ _ I) as F. rewrite El in F. apply Forall_app in F as [F1 F2]. inversion F2; subst.
      apply Forall_app. auto.
    + rewrite Ee. eapply srt_remove; eauto.
    + intros k y Hk. rewrite Ee. destruct (ukey_eq_dec k u) as [->|N].
      * split; [discriminate|]. intros H. exfalso. eapply (srt_once A B x); [exact So|exact H|].
        unfold val. cbn. rewrite Ex. reflexivity.
      * rewrite (inv_map _ _ _ I k y Hk), El. split; intros H.
        -- apply in_app_or in H as [H|[H|H]]; apply in_or_app; auto. exfalso. subst x. cbn in Ex.
           apply N. rewrite <- (stored_back K k Hk), <- (stored_back K u Hu), Ex. reflexivity.
        -- apply in_app_or in H as [H|H]; apply in_or_app; cbn; auto.
    + rewrite Ee, (inv_count _ _ _ I), El, u64_minus, !app_length. cbn [length]. f_equal. lia.
    + rewrite Ee, (inv_bytes _ _ _ I), El, u64_minus, !total_app. cbn [total fold_right]. f_equal. fold (total B). lia.
    + reflexivity.
Qed.

Lemma clear_loop_spec n : forall t, proper (root t) -> (length (elements (root t)) < n)%nat ->
  count t = u64 (Z.of_nat (length (elements (root t)))) -> bytes t = u64 (total (elements (root t))) ->
  clear_loop key_size val_size n t = Ok (mkTree Leaf 0 0 (immutable t)).
Proof.
  induction n as [|n IH]; intros t Pr L Ec Eb; [lia|]. cbn [clear_loop].
  pose proof (remove_min_proper (root t) Pr) as R. destruct (root t) as [|c l x r] eqn:Er.
  - rewrite R. cbn. destruct t as [rt ct bt im]. cbn in *. subst. reflexivity.
  - destruct R as (e & t' & E & Pr' & El). rewrite E. cbn [obind]. rewrite El in *. cbn [length total fold_right] in *.
    fold (total (elements t')) in Eb. rewrite IH; cbn [root count bytes immutable]; [reflexivity|exact Pr'|lia| |].
    + rewrite Ec, u64_minus. f_equal. lia.
    + rewrite Eb, u64_minus. f_equal. lia.
Qed.

Lemma inv_empty K im : im = false -> Inv K no_bindings (mkTree Leaf 0 0 im).
Proof.
  intros ->. split; cbn; auto.
  - split; [reflexivity|exists 0%nat; constructor].
  - constructor.
  - split; [discriminate|intros []].
Qed.

Lemma clear_step K m t : Inv K m t ->
  exists t', np_tree_clear key_size val_size t = Ok t' /\ Inv K no_bindings t'.
Proof.
  intros I. unfold np_tree_clear. rewrite clear_loop_spec; [|apply (inv_proper _ _ _ I)|lia|apply (inv_count _ _ _ I)|apply (inv_bytes _ _ _ I)].
  eexists. split; [reflexivity|]. apply inv_empty. apply (inv_mutable _ _ _ I).
Qed.

Lemma inv_ext K m m' t : (forall u, of_kind K u -> m u = m' u) -> Inv K m t -> Inv K m' t.
Proof. intros H [I1 I2 I3 I4 I5 I6 I7]. split; auto. intros u v Hu. rewrite <- H by auto. apply I4; auto. Qed.

Lemma op_step K m t (o : op) : Inv K m t -> (forall u, op_key o = Some u -> of_kind K u) ->
  exists t', do_op undefined key_size val_size o t = Ok t' /\ Inv K (change o m) t'.
Proof.
  intros I H. destruct o as [u v|u v|u|]; cbn [do_op op_key] in *.
  - destruct (insert_step K m t u v I (H u eq_refl)) as (t' & E & I'). exists t'. auto.
  - destruct (replace_step K m t u v I (H u eq_refl)) as (t' & E & I'). exists t'. auto.
  - destruct (delete_step K m t u I (H u eq_refl)) as (t' & E & I'). exists t'. auto.
  - destruct (clear_step K m t I) as (t' & E & I'). exists t'. auto.
Qed.

Lemma run_inv K h : forall m t, Inv K m t -> Forall (fun o => forall u, op_key o = Some u -> of_kind K u) h ->
  exists t', run undefined key_size val_size h t = Ok t' /\ Inv K (bindings h m) t'.
Proof.
  induction h as [|o h IH]; intros m t I F; cbn [run bindings]; [eauto|].
  inversion F; subst. destruct (op_step K m t o I) as (t1 & E & I1); [assumption|]. rewrite E. cbn [obind]. eauto.
Qed.

(** Copying the elements [l] of a map into another tree *)
Lemma copy_spec K (step : ukey -> V -> np_tree -> outcome np_tree) (upd_ : ukey -> V -> (ukey -> option V) -> ukey -> option V) :
  (forall m t u v, Inv K m t -> of_kind K u -> exists t', step u v t = Ok t' /\ Inv K (upd_ u v m) t') ->
  forall l m t, Forall (stored_elem K) l -> Inv K m t ->
  exists t', copy_loop step l t = Ok t' /\ Inv K (fold_left (fun m e => upd_ (key_back (fst e)) (snd e) m) l m) t'.
Proof.
  intros Hs. induction l as [|[k v] l IH]; intros m t F I; cbn [copy_loop fold_left]; [eauto|].
  inversion F as [|? ? (u & Hu & Ek) F']; subst. cbn in Ek. subst k. rewrite (stored_back K u Hu). cbn [fst snd].
  destruct (Hs m t u v I Hu) as (t1 & E & I1). rewrite E. cbn [obind]. rewrite (stored_back K u Hu). eauto.
Qed.

(** *** Copies *)
Definition ins_upd (u : ukey) (v : V) (m : ukey -> option V) : ukey -> option V := fun k =>
  if ukey_eq_dec k u then match m k with Some w => Some w | None => Some v end else m k.
Definition rep_upd (u : ukey) (v : V) (m : ukey -> option V) : ukey -> option V := fun k =>
  if ukey_eq_dec k u then Some v else m k.

Lemma back_eq K u w : of_kind K u -> of_kind K w -> stored_key u = stored_key w -> u = w.
Proof. intros Hu Hw E. rewrite <- (stored_back K u Hu), <- (stored_back K w Hw), E. reflexivity. Qed.

Lemma fold_ins K l : forall m u, Forall (stored_elem K) l -> srt l -> of_kind K u -> forall w,
  fold_left (fun m e => ins_upd (key_back (fst e)) (snd e) m) l m u = Some w <->
  m u = Some w \/ (m u = None /\ In (stored_key u, w) l).
Proof.
  induction l as [|[k v] l IH]; intros m u F S Hu w; cbn [fold_left]; [cbn; tauto|].
  inversion F as [|? ? (k' & Hk & Ek) F']; subst. cbn in Ek. subst k. inversion S as [|? ? S' Fl]; subst. cbn [fst snd].
  rewrite IH by auto. rewrite (stored_back K k' Hk). unfold ins_upd. destruct (ukey_eq_dec u k') as [->|N].
  - destruct (m k') as [x|] eqn:E.
    + split; [intros [H|[H _]]; [left; exact H|discriminate]|intros [H|[H _]]; [left; exact H|discriminate]].
    + split.
      * intros [H|[H _]]; [|discriminate]. injection H as <-. right. split; [reflexivity|left; reflexivity].
      * intros [H|[_ [H|H]]]; [discriminate| |].
        -- left. congruence.
        -- exfalso. rewrite Forall_forall in Fl. specialize (Fl _ H). rewrite !(sval K) in Fl by auto. apply lt_neq in Fl. congruence.
  - cbn [In]. split; [intros [H|[H1 H2]]; auto|intros [H|[H1 [H2|H2]]]; auto].
    exfalso. injection H2 as H2 _. apply N. symmetry. apply (back_eq K); auto.
Qed.

Lemma fold_rep K l : forall m u, Forall (stored_elem K) l -> srt l -> of_kind K u -> forall w,
  fold_left (fun m e => rep_upd (key_back (fst e)) (snd e) m) l m u = Some w <->
  In (stored_key u, w) l \/ (m u = Some w /\ forall x, ~ In (stored_key u, x) l).
Proof.
  induction l as [|[k v] l IH]; intros m u F S Hu w; cbn [fold_left]; [cbn; tauto|].
  inversion F as [|? ? (k' & Hk & Ek) F']; subst. cbn in Ek. subst k. inversion S as [|? ? S' Fl]; subst. cbn [fst snd].
  rewrite IH by auto. rewrite (stored_back K k' Hk). unfold rep_upd. destruct (ukey_eq_dec u k') as [->|N].
  - assert (No : forall x, ~ In (stored_key k', x) l).
    { intros x H. rewrite Forall_forall in Fl. specialize (Fl _ H). rewrite !(sval K) in Fl by auto. apply lt_neq in Fl. congruence. }
    split.
    + intros [H|[H _]]; [elim (No w H)|]. injection H as <-. left. left. reflexivity.
    + intros [[H|H]|[_ H]]; [right; split; [congruence|exact No]|elim (No w H)|]. elim (H v). left. reflexivity.
  - assert (Ne : forall x, (stored_key k', v) <> (stored_key u, x)).
    { intros x H. injection H as H _. apply N. symmetry. apply (back_eq K); auto. }
    cbn [In]. split.
    + intros [H|[H1 H2]]; [auto|]. right. split; [exact H1|]. intros x [H|H]; [elim (Ne x H)|elim (H2 x H)].
    + intros [[H|H]|[H1 H2]]; [elim (Ne w H)|auto|]. right. split; [exact H1|]. intros x H. apply (H2 x). auto.
Qed.

Lemma opt_ext (a b : option V) : (forall w, a = Some w <-> b = Some w) -> a = b.
Proof.
  intros H. destruct a as [x|].
  - symmetry. apply H. reflexivity.
  - destruct b as [y|]; [|reflexivity]. apply H. reflexivity.
Qed.

Lemma copy_step K ms s mt t : Inv K ms s -> Inv K mt t ->
  exists t', np_tree_copy undefined key_size val_size s t = Ok t' /\
    Inv K (fun u => match mt u with Some w => Some w | None => ms u end) t'.
Proof.
  intros Is It. unfold np_tree_copy.
  destruct (copy_spec K (np_tree_insert undefined key_size val_size) ins_upd) with (l := elements (root s)) (m := mt) (t := t)
    as (t' & E & I'); [|apply (inv_stored _ _ _ Is)|exact It|].
  { intros m t0 u v I Hu. apply (insert_step K m t0 u v I Hu). }
  exists t'. split; [exact E|]. eapply inv_ext; [|exact I']. intros u Hu. apply opt_ext. intros w.
  rewrite (fold_ins K (elements (root s)) mt u (inv_stored _ _ _ Is) (inv_sorted _ _ _ Is) Hu w).
  rewrite <- (inv_map _ _ _ Is u w Hu). destruct (mt u) as [x|]; split; try tauto.
  - intros [H|[H _]]; [exact H|discriminate].
  - intros [H|[_ H]]; [discriminate|exact H].
Qed.

Lemma copy_inplace_step K ms s mt t : Inv K ms s -> Inv K mt t ->
  exists t', np_tree_copy_inplace undefined key_size val_size s t = Ok t' /\
    Inv K (fun u => match ms u with Some w => Some w | None => mt u end) t'.
Proof.
  intros Is It. unfold np_tree_copy_inplace.
  destruct (copy_spec K (np_tree_replace undefined key_size val_size) rep_upd) with (l := elements (root s)) (m := mt) (t := t)
    as (t' & E & I'); [|apply (inv_stored _ _ _ Is)|exact It|].
  { intros m t0 u v I Hu. apply (replace_step K m t0 u v I Hu). }
  exists t'. split; [exact E|]. eapply inv_ext; [|exact I']. intros u Hu. apply opt_ext. intros w.
  rewrite (fold_rep K (elements (root s)) mt u (inv_stored _ _ _ Is) (inv_sorted _ _ _ Is) Hu w).
  rewrite <- (inv_map _ _ _ Is u w Hu). destruct (ms u) as [x|] eqn:E2; split.
  - intros [H|[_ H]]; [exact H|]. elim (H x). apply (inv_map _ _ _ Is); auto.
  - tauto.
  - intros [H|[H _]]; [discriminate|exact H].
  - intros H. right. split; [exact H|]. intros y Hy. apply (inv_map _ _ _ Is) in Hy; auto. congruence.
Qed.

(** *** Whatever the keys: nothing undefined happens and the tree stays balanced *)
Lemma clear_loop_ok n : forall t, proper (root t) -> (length (elements (root t)) < n)%nat ->
  exists t', clear_loop key_size val_size n t = Ok t' /\ root t' = Leaf /\ immutable t' = immutable t.
Proof.
  induction n as [|n IH]; intros t Pr L; [lia|]. cbn [clear_loop].
  pose proof (remove_min_proper (root t) Pr) as R. destruct (root t) as [|c l x r] eqn:Er.
  - rewrite R. cbn. eauto.
  - destruct R as (e & t' & E & Pr' & El). rewrite E. cbn [obind]. rewrite El in *. cbn [length] in *.
    destruct (IH (mkTree t' (u64 (count t - 1)) (u64 (bytes t - esize e)) (immutable t))) as (t2 & E2 & R2 & I2); cbn [root]; [exact Pr'|lia|].
    exists t2. auto.
Qed.

Lemma op_any (o : op) t : proper (root t) -> immutable t = false ->
  exists t', do_op undefined key_size val_size o t = Ok t' /\ proper (root t') /\ immutable t' = false.
Proof.
  intros Pr Im.
  assert (Ins : forall u v, exists t', np_tree_insert undefined key_size val_size u v t = Ok t' /\ proper (root t') /\ immutable t' = false).
  { intros u v. unfold np_tree_insert. destruct (np_tree_find undefined u t); [eauto|]. unfold np_tree_insert_element. rewrite Im.
    destruct (insert_proper elem_cmp (stored_key u, v) (root t) Pr) as (r & o' & E & P). rewrite E. cbn. eauto. }
  destruct o as [u v|u v|u|]; cbn [do_op].
  - apply Ins.
  - unfold np_tree_replace. destruct (np_tree_find undefined u t); [|apply Ins]. rewrite Im. eexists. split; [reflexivity|].
    cbn. split; [|reflexivity]. apply find_update_proper. exact Pr.
  - unfold np_tree_del. rewrite Im. destruct (find_remove_proper elem_cmp (search undefined u) (root t) Pr) as (r & o' & E & P).
    rewrite E. cbn. destruct o'; eauto.
  - unfold np_tree_clear. destruct (clear_loop_ok (S (length (elements (root t)))) t Pr) as (t' & E & R & I); [lia|].
    exists t'. split; [exact E|]. rewrite R, I. split; [|exact Im]. split; [reflexivity|exists 0%nat; constructor].
Qed.

Lemma run_any h : forall t, proper (root t) -> immutable t = false ->
  exists t', run undefined key_size val_size h t = Ok t' /\ proper (root t') /\ immutable t' = false.
Proof.
  induction h as [|o h IH]; intros t Pr Im; cbn [run]; [eauto|].
  destruct (op_any o t Pr Im) as (t1 & E & P & I). rewrite E. cbn [obind]. auto.
Qed.
End Map.
