(** Red-black trees: the balance conditions hold for every comparison function; the order of the elements; searching. *)
From Verif Require Import Base Rbtree_Model Rbtree_Spec.

Section Proofs.
Context {A : Type}.
Implicit Types (t l r : tree A) (p : list (frame A)) (x : A).

(** ** Order of the elements *)
Fixpoint before p : list A :=
  match p with
  | [] => []
  | InLeft _ _ _ :: p' => before p'
  | InRight _ l x :: p' => before p' ++ elements l ++ [x]
  end.
Fixpoint after p : list A :=
  match p with
  | [] => []
  | InLeft _ x r :: p' => x :: elements r ++ after p'
  | InRight _ _ _ :: p' => after p'
  end.

Lemma elements_plug p : forall t, elements (plug p t) = before p ++ elements t ++ after p.
Proof.
  induction p as [|[c x r|c l x] p IH]; intros t; cbn [plug before after].
  - rewrite app_nil_r. reflexivity.
  - rewrite IH. cbn. rewrite <- !app_assoc. reflexivity.
  - rewrite IH. cbn. rewrite <- !app_assoc. reflexivity.
Qed.
Lemma elements_blacken t : elements (blacken t) = elements t.
Proof. destruct t; reflexivity. Qed.

Lemma before_app p q : before (p ++ q) = before q ++ before p.
Proof. induction p as [|[c x r|c l x] p IH]; cbn; rewrite ?app_nil_r, ?IH; auto. rewrite <- !app_assoc. reflexivity. Qed.
Lemma after_app p q : after (p ++ q) = after p ++ after q.
Proof. induction p as [|[c x r|c l x] p IH]; cbn; rewrite ?IH; auto. rewrite <- !app_assoc. reflexivity. Qed.

Definition either {B C} (f : B -> C) (s : B + B) : C := match s with inl x | inr x => f x end.
Ltac norm := repeat (cbn [plug before after elements app either] || rewrite elements_plug || rewrite elements_blacken || rewrite <- app_assoc); auto.

(** induction over the path two frames at a time *)
Lemma path_ind2 (P : list (frame A) -> Prop) : P [] -> (forall f, P [f]) -> (forall f g p, P p -> P (f :: g :: p)) -> forall p, P p.
Proof.
  intros H0 H1 H2. fix rec 1. intros [|f [|g p]]; [exact H0|apply H1|apply H2, rec].
Qed.

Lemma insert_color_elements p : forall t t', insert_color p t = Ok t' -> elements t' = before p ++ elements t ++ after p.
Proof.
  induction p as [|f|f g p IH] using path_ind2; intros t t' H.
  - injection H as <-. cbn. rewrite app_nil_r. apply elements_blacken.
  - cbn [insert_color] in H. destruct (frame_color f); [discriminate|]. injection H as <-. rewrite elements_blacken.
    change (elements (plug [f] t) = before [f] ++ elements t ++ after [f]). apply elements_plug.
  - cbn [insert_color] in H. destruct (frame_color f).
    + destruct g as [gc gx u|gc u gx]; destruct (is_red u).
      * apply IH in H. rewrite H. destruct f; norm.
      * destruct f as [fc fx fr|fc fl fx].
        -- injection H as <-. norm.
        -- destruct t; [discriminate|]. injection H as <-. norm.
      * apply IH in H. rewrite H. destruct f; norm.
      * destruct f as [fc fx fr|fc fl fx].
        -- destruct t; [discriminate|]. injection H as <-. norm.
        -- injection H as <-. norm.
    + injection H as <-. rewrite elements_blacken. apply (elements_plug (f :: g :: p)).
Qed.

Lemma remove_left_elements c t x w s : remove_left c t x w = Ok s -> either elements s = elements t ++ x :: elements w.
Proof.
  unfold remove_left. destruct w as [|wc wl wx wr]; [discriminate|].
  destruct (negb (is_red wl) && negb (is_red wr)); [intros H; injection H as <-; reflexivity|].
  destruct (negb (is_red wr)).
  - destruct wl; [discriminate|]. intros H; injection H as <-. norm.
  - intros H; injection H as <-. norm.
Qed.
Lemma remove_right_elements c t x w s : remove_right c w x t = Ok s -> either elements s = elements w ++ x :: elements t.
Proof.
  unfold remove_right. destruct w as [|wc wl wx wr]; [discriminate|].
  destruct (negb (is_red wl) && negb (is_red wr)); [intros H; injection H as <-; norm|].
  destruct (negb (is_red wl)).
  - destruct wr; [discriminate|]. intros H; injection H as <-. norm.
  - intros H; injection H as <-. norm.
Qed.

Lemma remove_color_elements p : forall t t', remove_color p t = Ok t' -> elements t' = before p ++ elements t ++ after p.
Proof.
  induction p as [|f p IH]; intros t t' H; cbn [remove_color] in H.
  - destruct (is_red t); injection H as <-; cbn; rewrite app_nil_r; apply elements_blacken.
  - destruct (is_red t).
    { injection H as <-. rewrite <- (elements_blacken t). apply (elements_plug (f :: p)). }
    destruct f as [c x w|c w x].
    + destruct w as [|[] wl wx wr].
      * discriminate.
      * destruct (remove_left Red t x wl) as [[s|s]| |] eqn:E; try discriminate; apply remove_left_elements in E; cbn in E, H;
          injection H as <-; norm; rewrite E; norm.
      * destruct (remove_left c t x (Node Black wl wx wr)) as [[s|s]| |] eqn:E; try discriminate; apply remove_left_elements in E; cbn in E, H.
        -- apply IH in H. rewrite H, E. norm.
        -- injection H as <-. norm. rewrite E. norm.
    + destruct w as [|[] wl wx wr].
      * discriminate.
      * destruct (remove_right Red wr x t) as [[s|s]| |] eqn:E; try discriminate; apply remove_right_elements in E; cbn in E, H;
          injection H as <-; norm; rewrite E; norm.
      * destruct (remove_right c (Node Black wl wx wr) x t) as [[s|s]| |] eqn:E; try discriminate; apply remove_right_elements in E; cbn in E, H.
        -- apply IH in H. rewrite H, E. norm.
        -- injection H as <-. norm. rewrite E. norm.
Qed.

Lemma leftmost_elements l : forall c x r p c' e d q, leftmost c l x r p = (c', e, d, q) ->
  exists m, q = m ++ p /\ before m = [] /\ elements (Node c l x r) = e :: elements d ++ after m.
Proof.
  induction l as [|lc ll IH lx lr _]; intros c x r p c' e d q H; cbn in H.
  - injection H as <- <- <- <-. exists []. cbn. rewrite app_nil_r. auto.
  - apply IH in H as (m & -> & B & E). exists (m ++ [InLeft c x r]). rewrite <- app_assoc. split; [reflexivity|].
    rewrite before_app, after_app, B. split; [reflexivity|].
    change (elements (Node c (Node lc ll lx lr) x r)) with (elements (Node lc ll lx lr) ++ x :: elements r).
    rewrite E. cbn. rewrite <- !app_assoc, app_nil_r. reflexivity.
Qed.

Lemma remove_node_elements p c l r t' : remove_node p c l r = Ok t' ->
  elements t' = before p ++ elements l ++ elements r ++ after p.
Proof.
  unfold remove_node. destruct l as [|lc ll lx lr].
  - destruct c; intros H; [injection H as <-; rewrite elements_plug|rewrite (remove_color_elements _ _ _ H)]; reflexivity.
  - destruct r as [|rc rl rx rr].
    + destruct c; intros H; [injection H as <-; rewrite elements_plug|rewrite (remove_color_elements _ _ _ H)]; cbn; rewrite <- ?app_assoc; reflexivity.
    + destruct (leftmost rc rl rx rr []) as [[[ec e] d] q] eqn:E.
      destruct (leftmost_elements _ _ _ _ _ _ _ _ _ E) as (m & Q & B & El). rewrite app_nil_r in Q. subst m.
      intros H. assert (G : elements t' = before (q ++ InRight c (Node lc ll lx lr) e :: p) ++ elements d ++ after (q ++ InRight c (Node lc ll lx lr) e :: p)).
      { destruct (is_red (Node ec Leaf e Leaf)); [injection H as <-; apply elements_plug|apply remove_color_elements; exact H]. }
      rewrite G, before_app, after_app, B, app_nil_r, El. cbn [before after].
      change (elements (Node lc ll lx lr)) with (elements ll ++ lx :: elements lr).
      rewrite <- !app_assoc. cbn. rewrite <- !app_assoc. reflexivity.
Qed.

(** ** Balance *)

(** [good_path p n b]: a balanced tree with black height [n] fits in at the end of [p]; it may be red if [b]. *)
Inductive good_path : list (frame A) -> nat -> bool -> Prop :=
| gp_root n : good_path [] n false
| gp_black_l x r p n b : balanced r n -> good_path p (S n) b -> good_path (InLeft Black x r :: p) n true
| gp_black_r x l p n b : balanced l n -> good_path p (S n) b -> good_path (InRight Black l x :: p) n true
| gp_red_l x r p n : balanced r n -> is_red r = false -> good_path p n true -> good_path (InLeft Red x r :: p) n false
| gp_red_r x l p n : balanced l n -> is_red l = false -> good_path p n true -> good_path (InRight Red l x :: p) n false.

Lemma plug_proper p : forall n b t, good_path p n b -> balanced t n -> (b = false -> is_red t = false) -> proper (plug p t).
Proof.
  induction p as [|f p IH]; intros n b t G B K; inversion G; subst; cbn [plug].
  - split; [auto|exists n; exact B].
  - eapply IH; eauto. constructor; auto.
  - eapply IH; eauto. constructor; auto.
  - eapply IH; [eauto|constructor; auto|discriminate].
  - eapply IH; [eauto|constructor; auto|discriminate].
Qed.

Lemma blacken_id t : is_red t = false -> blacken t = t.
Proof. destruct t as [|[]]; auto; discriminate. Qed.
Lemma blacken_proper t : proper t -> blacken t = t.
Proof. intros [H _]. apply blacken_id, H. Qed.
Lemma balanced_blacken_red t n : balanced t n -> is_red t = true -> balanced (blacken t) (S n).
Proof. intros H R. inversion H; subst; try discriminate. cbn. constructor; auto. Qed.
Lemma balanced_red_inv l x r n : balanced (Node Red l x r) n ->
  balanced l n /\ balanced r n /\ is_red l = false /\ is_red r = false.
Proof. intros H; inversion H; subst; auto. Qed.
Lemma balanced_black_inv l x r n : balanced (Node Black l x r) n -> exists m, n = S m /\ balanced l m /\ balanced r m.
Proof. intros H; inversion H; subst; eauto. Qed.

Lemma proper_red_root l x r n : balanced (Node Red l x r) n -> proper (blacken (Node Red l x r)).
Proof. intros H. split; [reflexivity|]. exists (S n). apply (balanced_blacken_red _ _ H eq_refl). Qed.

Lemma insert_color_proper p : forall n b l x r, good_path p n b -> balanced (Node Red l x r) n ->
  exists t', insert_color p (Node Red l x r) = Ok t' /\ proper t'.
Proof.
  induction p as [|f|f g p IH] using path_ind2; intros n b l x r G B.
  - eexists. split; [reflexivity|]. eapply proper_red_root; eauto.
  - assert (frame_color f = Black) as E by (inversion G; subst; auto; match goal with H : good_path [] _ true |- _ => inversion H end).
    cbn [insert_color]. rewrite E. eexists. split; [reflexivity|].
    assert (b = true) as -> by (inversion G; subst; auto; discriminate).
    pose proof (plug_proper _ _ _ _ G B ltac:(discriminate)) as Pr. rewrite blacken_proper; auto.
  - cbn [insert_color]. destruct (frame_color f) eqn:E.
    2:{ eexists. split; [reflexivity|]. assert (b = true) as -> by (inversion G; subst; auto; discriminate).
        pose proof (plug_proper _ _ _ _ G B ltac:(discriminate)) as Pr. rewrite blacken_proper; auto. }
    pose proof (balanced_red_inv _ _ _ _ B) as (Bl & Br & Rl & Rr).
    assert (Fin : forall b' m t, good_path p m b' -> balanced t m -> is_red t = false -> proper (blacken (plug p t))).
    { intros b' m t G' B' R'. pose proof (plug_proper p m b' t G' B' (fun _ => R')) as Pr. rewrite blacken_proper; auto. }
    inversion G; subst; try discriminate E;
      match goal with H : good_path (_ :: _) _ true |- _ => inversion H; subst end;
      match goal with |- context[is_red ?u] => destruct (is_red u) eqn:Eu end;
      try (eapply IH; [eassumption|]; repeat (constructor; auto using balanced_blacken_red);
           match goal with |- is_red (blacken ?u) = false => destruct u; reflexivity end);
      try (eexists; split; [reflexivity|]; eapply Fin; [eassumption| |reflexivity]; repeat (constructor; auto)).
Qed.

Lemma remove_left_ok c t x w n : balanced t n -> is_red t = false -> balanced w (S n) -> is_red w = false ->
  exists s, remove_left c t x w = Ok s /\
    match s with
    | inl u => exists w', u = Node c t x w' /\ is_red w' = true /\ balanced w' n
    | inr u => balanced u (match c with Red => S n | Black => S (S n) end) /\ (c = Black -> is_red u = false)
    end.
Proof.
  intros Bt Rt Bw Rw. destruct w as [|[] wl wx wr]; [inversion Bw|discriminate|].
  apply balanced_black_inv in Bw as (m & E & Bl & Br). injection E as <-.
  unfold remove_left. destruct (is_red wl) eqn:El, (is_red wr) eqn:Er; cbn [negb andb].
  - eexists. split; [reflexivity|]. cbn. destruct c; split; try discriminate; auto; repeat constructor; auto using balanced_blacken_red; destruct wr; reflexivity.
  - destruct wl as [|[] a y b]; try discriminate. apply balanced_red_inv in Bl as (Ba & Bb & _ & _).
    eexists. split; [reflexivity|]. cbn. destruct c; split; try discriminate; auto; repeat constructor; auto.
  - eexists. split; [reflexivity|]. cbn. destruct c; split; try discriminate; auto; repeat constructor; auto using balanced_blacken_red; destruct wr; reflexivity.
  - eexists. split; [reflexivity|]. cbn. eexists. split; [reflexivity|]. split; [reflexivity|]. constructor; auto.
Qed.
Lemma remove_right_ok c t x w n : balanced t n -> is_red t = false -> balanced w (S n) -> is_red w = false ->
  exists s, remove_right c w x t = Ok s /\
    match s with
    | inl u => exists w', u = Node c w' x t /\ is_red w' = true /\ balanced w' n
    | inr u => balanced u (match c with Red => S n | Black => S (S n) end) /\ (c = Black -> is_red u = false)
    end.
Proof.
  intros Bt Rt Bw Rw. destruct w as [|[] wl wx wr]; [inversion Bw|discriminate|].
  apply balanced_black_inv in Bw as (m & E & Bl & Br). injection E as <-.
  unfold remove_right. destruct (is_red wl) eqn:El, (is_red wr) eqn:Er; cbn [negb andb].
  - eexists. split; [reflexivity|]. cbn. destruct c; split; try discriminate; auto; repeat constructor; auto using balanced_blacken_red; destruct wl; reflexivity.
  - eexists. split; [reflexivity|]. cbn. destruct c; split; try discriminate; auto; repeat constructor; auto using balanced_blacken_red; destruct wl; reflexivity.
  - destruct wr as [|[] a y b]; try discriminate. apply balanced_red_inv in Br as (Ba & Bb & _ & _).
    eexists. split; [reflexivity|]. cbn. destruct c; split; try discriminate; auto; repeat constructor; auto.
  - eexists. split; [reflexivity|]. cbn. eexists. split; [reflexivity|]. split; [reflexivity|]. constructor; auto.
Qed.

(** The tree lacks one black node: RB_REMOVE_COLOR repairs that. *)
Lemma remove_color_proper p : forall n b t, good_path p (S n) b -> balanced t n ->
  exists t', remove_color p t = Ok t' /\ proper t'.
Proof.
  induction p as [|f p IH]; intros n b t G B; cbn [remove_color].
  - destruct (is_red t) eqn:R.
    + eexists. split; [reflexivity|]. cbn. split; [destruct t; reflexivity|]. exists (S n). apply balanced_blacken_red; auto.
    + eexists. split; [reflexivity|]. rewrite blacken_id by auto. split; [auto|eauto].
  - destruct (is_red t) eqn:R.
    { eexists. split; [reflexivity|]. eapply plug_proper; [exact G|apply balanced_blacken_red; auto|].
      intros _. destruct t; reflexivity. }
    assert (Fin : forall b' m t0, good_path p m b' -> balanced t0 m -> (b' = false -> is_red t0 = false) -> proper (blacken (plug p t0))).
    { intros b' m t0 G' B' R'. pose proof (plug_proper p m b' t0 G' B' R') as Pr. rewrite blacken_proper; auto. }
    inversion G; subst.
    + (* black parent, left child *)
      match goal with H : good_path p _ ?b' |- _ => rename H into Gp; rename b' into bb end.
      match goal with H : balanced r _ |- _ => rename H into Bw end.
      destruct r as [|[] wl wx wr]; [inversion Bw| |].
      * apply balanced_red_inv in Bw as (Bl & Br & Rl & Rr).
        destruct (remove_left_ok Red t x wl n B R Bl Rl) as ([u|u] & E & K); rewrite E; cbn [obind].
        -- destruct K as (w' & -> & Rw & Bw'). eexists. split; [reflexivity|]. eapply plug_proper; [exact Gp| |reflexivity].
           cbn. constructor; [constructor|]; auto.
        -- destruct K as [K _]. eexists. split; [reflexivity|]. eapply Fin; [exact Gp| |reflexivity]. constructor; auto.
      * destruct (remove_left_ok Black t x (Node Black wl wx wr) n B R Bw eq_refl) as ([u|u] & E & K); rewrite E; cbn [obind].
        -- destruct K as (w' & -> & Rw & Bw'). eapply IH; [exact Gp|]. constructor; auto.
        -- destruct K as [K1 K2]. eexists. split; [reflexivity|]. eapply Fin; [exact Gp|exact K1|auto].
    + match goal with H : good_path p _ ?b' |- _ => rename H into Gp; rename b' into bb end.
      match goal with H : balanced l _ |- _ => rename H into Bw end.
      destruct l as [|[] wl wx wr]; [inversion Bw| |].
      * apply balanced_red_inv in Bw as (Bl & Br & Rl & Rr).
        destruct (remove_right_ok Red t x wr n B R Br Rr) as ([u|u] & E & K); rewrite E; cbn [obind].
        -- destruct K as (w' & -> & Rw & Bw'). eexists. split; [reflexivity|]. eapply plug_proper; [exact Gp| |reflexivity].
           cbn. constructor; [|constructor]; auto.
        -- destruct K as [K _]. eexists. split; [reflexivity|]. eapply Fin; [exact Gp| |reflexivity]. constructor; auto.
      * destruct (remove_right_ok Black t x (Node Black wl wx wr) n B R Bw eq_refl) as ([u|u] & E & K); rewrite E; cbn [obind].
        -- destruct K as (w' & -> & Rw & Bw'). eapply IH; [exact Gp|]. constructor; auto.
        -- destruct K as [K1 K2]. eexists. split; [reflexivity|]. eapply Fin; [exact Gp|exact K1|auto].
    + match goal with H : good_path p _ true |- _ => rename H into Gp end.
      match goal with H : balanced r _ |- _ => rename H into Bw end.
      destruct r as [|[] wl wx wr]; [inversion Bw|discriminate|].
      destruct (remove_left_ok Red t x (Node Black wl wx wr) n B R Bw eq_refl) as ([u|u] & E & K); rewrite E; cbn [obind].
      * destruct K as (w' & -> & Rw & Bw'). assert (Ht : remove_color p (Node Red t x w') = Ok (plug p (Node Black t x w'))) by (destruct p; reflexivity).
        rewrite Ht. eexists. split; [reflexivity|]. eapply plug_proper; [exact Gp|constructor; auto|discriminate].
      * destruct K as [K1 K2]. eexists. split; [reflexivity|]. eapply Fin; [exact Gp|exact K1|discriminate].
    + match goal with H : good_path p _ true |- _ => rename H into Gp end.
      match goal with H : balanced l _ |- _ => rename H into Bw end.
      destruct l as [|[] wl wx wr]; [inversion Bw|discriminate|].
      destruct (remove_right_ok Red t x (Node Black wl wx wr) n B R Bw eq_refl) as ([u|u] & E & K); rewrite E; cbn [obind].
      * destruct K as (w' & -> & Rw & Bw'). assert (Ht : remove_color p (Node Red w' x t) = Ok (plug p (Node Black w' x t))) by (destruct p; reflexivity).
        rewrite Ht. eexists. split; [reflexivity|]. eapply plug_proper; [exact Gp|constructor; auto|discriminate].
      * destruct K as [K1 K2]. eexists. split; [reflexivity|]. eapply Fin; [exact Gp|exact K1|discriminate].
Qed.

(** The path and subtree of a node in a balanced tree *)
Lemma good_path_down_l c x r l p n b : good_path p n b -> balanced (Node c l x r) n -> (b = false -> c = Black) ->
  exists m b', good_path (InLeft c x r :: p) m b' /\ balanced l m /\ (b' = false -> is_red l = false).
Proof.
  intros G B K. destruct c.
  - destruct b; [|specialize (K eq_refl); discriminate]. apply balanced_red_inv in B as (Bl & Br & Rl & Rr).
    exists n, false. split; [constructor; auto|auto].
  - apply balanced_black_inv in B as (m & -> & Bl & Br). exists m, true. split; [econstructor; eauto|]. split; [auto|discriminate].
Qed.
Lemma good_path_down_r c x r l p n b : good_path p n b -> balanced (Node c l x r) n -> (b = false -> c = Black) ->
  exists m b', good_path (InRight c l x :: p) m b' /\ balanced r m /\ (b' = false -> is_red r = false).
Proof.
  intros G B K. destruct c.
  - destruct b; [|specialize (K eq_refl); discriminate]. apply balanced_red_inv in B as (Bl & Br & Rl & Rr).
    exists n, false. split; [constructor; auto|auto].
  - apply balanced_black_inv in B as (m & -> & Bl & Br). exists m, true. split; [econstructor; eauto|]. split; [auto|discriminate].
Qed.

Lemma leftmost_path l : forall c x r p n b c' e d q, leftmost c l x r p = (c', e, d, q) ->
  good_path p n b -> balanced (Node c l x r) n -> (b = false -> c = Black) ->
  exists m b', good_path q m b' /\ balanced (Node c' Leaf e d) m /\ (b' = false -> c' = Black).
Proof.
  induction l as [|lc ll IH lx lr _]; intros c x r p n b c' e d q H G B K; cbn in H.
  - injection H as <- <- <- <-. exists n, b. auto.
  - destruct (good_path_down_l _ _ _ _ _ _ _ G B K) as (m & b' & G' & B' & K').
    eapply IH; [exact H|exact G'|exact B'|]. intros Hb. specialize (K' Hb). destruct lc; [discriminate|reflexivity].
Qed.

Lemma is_red_black c l x r : (is_red (Node c l x r) = false) <-> c = Black.
Proof. destruct c; cbn; split; auto; discriminate. Qed.

Lemma one_child c l x r n b p child : good_path p n b -> balanced (Node c l x r) n -> (b = false -> c = Black) ->
  child = (match l with Leaf => r | _ => l end) -> l = Leaf \/ r = Leaf ->
  exists t', match c with Red => Ok (plug p child) | Black => remove_color p child end = Ok t' /\ proper t'.
Proof.
  intros G B K -> Hl. destruct c.
  - apply balanced_red_inv in B as (Bl & Br & Rl & Rr). eexists. split; [reflexivity|].
    eapply plug_proper; [exact G| |]; destruct l; auto; destruct Hl as [Hl| ->]; auto; discriminate.
  - apply balanced_black_inv in B as (m & -> & Bl & Br). eapply remove_color_proper; [exact G|].
    destruct l; auto.
Qed.

Lemma remove_node_proper p c l x r n b : good_path p n b -> balanced (Node c l x r) n -> (b = false -> c = Black) ->
  exists t', remove_node p c l r = Ok t' /\ proper t'.
Proof.
  intros G B K. unfold remove_node. destruct l as [|lc ll lx lr].
  - destruct (one_child c Leaf x r n b p r G B K eq_refl (or_introl eq_refl)) as (t' & E & Pr). exists t'. auto.
  - destruct r as [|rc rl rx rr].
    + destruct (one_child c _ x Leaf n b p (Node lc ll lx lr) G B K eq_refl (or_intror eq_refl)) as (t' & E & Pr). exists t'. auto.
    + destruct (leftmost rc rl rx rr []) as [[[ec e] d] q] eqn:E.
      assert (E' : leftmost rc rl rx rr [InRight c (Node lc ll lx lr) e] = (ec, e, d, q ++ [InRight c (Node lc ll lx lr) e])).
      { clear - E. assert (G : forall l c x r p s, leftmost c l x r (p ++ s) = let '(a, b, d, q) := leftmost c l x r p in (a, b, d, q ++ s)).
        { clear. induction l as [|lc ll IH lx lr _]; intros c x r p s; cbn; [reflexivity|].
          change (InLeft c x r :: p ++ s) with ((InLeft c x r :: p) ++ s). apply IH. }
        pose proof (G rl rc rx rr [] [InRight c (Node lc ll lx lr) e]) as G'. rewrite E in G'. exact G'. }
      assert (G2 : forall l c x r p s, leftmost c l x r (p ++ s) = let '(a, b, d, q) := leftmost c l x r p in (a, b, d, q ++ s)).
      { clear. induction l as [|lc ll IH lx lr _]; intros c x r p s; cbn; [reflexivity|].
        change (InLeft c x r :: p ++ s) with ((InLeft c x r :: p) ++ s). apply IH. }
      pose proof (G2 rl rc rx rr [] (InRight c (Node lc ll lx lr) e :: p)) as E2. rewrite E in E2. cbn [app] in E2.
      assert (B2 : balanced (Node c (Node lc ll lx lr) e (Node rc rl rx rr)) n) by (inversion B; subst; constructor; auto).
      destruct (good_path_down_r _ _ _ _ _ _ _ G B2 K) as (m & b' & G' & B' & K').
      destruct (leftmost_path _ _ _ _ _ _ _ _ _ _ _ E2 G' B') as (m' & b'' & G'' & B'' & K'').
      { intros Hb. specialize (K' Hb). apply is_red_black in K'. exact K'. }
      destruct (one_child ec Leaf e d m' b'' _ d G'' B'' K'' eq_refl (or_introl eq_refl)) as (t' & Et & Pr).
      exists t'. split; [|exact Pr]. destruct ec; exact Et.
Qed.

(** ** Height *)
Fixpoint nodes t : nat := match t with Leaf => 0 | Node _ l _ r => S (nodes l + nodes r) end.
Lemma nodes_elements t : nodes t = length (elements t).
Proof. induction t as [|c l IHl x r IHr]; cbn; [reflexivity|]. rewrite app_length. cbn. lia. Qed.

Lemma balanced_nodes t n : balanced t n -> (2 ^ n <= S (nodes t))%nat.
Proof. induction 1; cbn [nodes Nat.pow]; lia. Qed.
Lemma balanced_height t n : balanced t n -> (height t <= 2 * n + (if is_red t then 1 else 0))%nat.
Proof.
  induction 1 as [|l x r n Hl IHl Hr IHr|l x r n Hl IHl Hr IHr El Er]; cbn [height is_red]; [lia| |].
  - destruct (is_red l), (is_red r); lia.
  - rewrite El, Er in *. lia.
Qed.
Lemma proper_height t : proper t -> (2 ^ height t <= (S (length (elements t))) * (S (length (elements t))))%nat.
Proof.
  intros [R (n & B)]. pose proof (balanced_nodes _ _ B) as N. pose proof (balanced_height _ _ B) as Hh.
  rewrite nodes_elements in N. rewrite R in Hh.
  apply Nat.le_trans with (2 ^ (n + n))%nat; [apply Nat.pow_le_mono_r; lia|].
  rewrite Nat.pow_add_r. apply Nat.mul_le_mono; exact N.
Qed.

(** ** Descending *)
Section Descend.
Variable cmp : A -> A -> Z.

Lemma descend_plug k t : forall p q u, descend cmp k t p = (q, u) ->
  plug q u = plug p t /\ match u with Leaf => True | Node _ _ x _ => cmp k x = 0 end.
Proof.
  induction t as [|c l IHl x r IHr]; intros p q u H; cbn in H.
  - injection H as <- <-. auto.
  - destruct (cmp k x <? 0) eqn:E1; [apply IHl in H; cbn in H; auto|].
    destruct (0 <? cmp k x) eqn:E2; [apply IHr in H; cbn in H; auto|].
    injection H as <- <-. split; [reflexivity|]. lia.
Qed.

Lemma descend_good k t : forall p q u n b, descend cmp k t p = (q, u) -> good_path p n b -> balanced t n ->
  (b = false -> is_red t = false) -> exists m b', good_path q m b' /\ balanced u m /\ (b' = false -> is_red u = false).
Proof.
  induction t as [|c l IHl x r IHr]; intros p q u n b H G B K; cbn in H.
  - injection H as <- <-. eauto.
  - assert (Kc : b = false -> c = Black) by (intros Hb; apply K in Hb; apply is_red_black in Hb; exact Hb).
    destruct (cmp k x <? 0).
    + destruct (good_path_down_l _ _ _ _ _ _ _ G B Kc) as (m & b' & G' & B' & K'). eapply IHl; eauto.
    + destruct (0 <? cmp k x).
      * destruct (good_path_down_r _ _ _ _ _ _ _ G B Kc) as (m & b' & G' & B' & K'). eapply IHr; eauto.
      * injection H as <- <-. eauto.
Qed.

Lemma insert_proper k t : proper t -> exists t' o, insert cmp k t = Ok (t', o) /\ proper t'.
Proof.
  intros Pr. pose proof Pr as [R (n & B)]. unfold insert.
  destruct (descend cmp k t []) as [q u] eqn:E.
  destruct (descend_good _ _ _ _ _ _ _ E (gp_root n) B (fun _ => R)) as (m & b & G & Bu & K).
  destruct u; [|eauto].
  inversion Bu; subst. assert (B1 : balanced (Node Red Leaf k Leaf) 0) by (repeat constructor).
  destruct (insert_color_proper _ _ _ _ _ _ G B1) as (t' & E' & Pr'). rewrite E'. cbn. eauto.
Qed.

Lemma find_remove_proper k t : proper t -> exists t' o, find_remove cmp k t = Ok (t', o) /\ proper t'.
Proof.
  intros Pr. pose proof Pr as [R (n & B)]. unfold find_remove.
  destruct (descend cmp k t []) as [q u] eqn:E.
  destruct (descend_good _ _ _ _ _ _ _ E (gp_root n) B (fun _ => R)) as (m & b & G & Bu & K).
  destruct u as [|c l x r]; [eauto|].
  destruct (remove_node_proper q c l x r m b G Bu) as (t' & E' & Pr').
  { intros Hb. apply K in Hb. apply is_red_black in Hb. exact Hb. }
  rewrite E'. cbn. eauto.
Qed.

Lemma balanced_swap p c l x y r : proper (plug p (Node c l x r)) -> proper (plug p (Node c l y r)).
Proof.
  assert (K : forall p t t', (forall n, balanced t n -> balanced t' n) -> is_red t' = is_red t ->
    forall n, balanced (plug p t) n -> balanced (plug p t') n /\ is_red (plug p t') = is_red (plug p t)).
  { clear. induction p as [|f p IH]; intros t t' H1 H2 n H; cbn in *; [auto|].
    destruct f; refine (IH _ _ _ _ n H); auto; intros m Hm; inversion Hm; subst; constructor; auto; congruence. }
  intros [R (n & B)]. destruct (K p (Node c l x r) (Node c l y r)) with (n := n) as [K1 K2]; auto.
  - intros m Hm. inversion Hm; subst; constructor; auto.
  - split; [rewrite K2; exact R|eauto].
Qed.

Lemma find_update_proper k f t : proper t -> proper (fst (find_update cmp k f t)).
Proof.
  intros Pr. unfold find_update. destruct (descend cmp k t []) as [q u] eqn:E.
  destruct u as [|c l x r]; [exact Pr|]. apply descend_plug in E as [E _]. cbn in *. rewrite <- E in Pr.
  eapply balanced_swap; eauto.
Qed.
End Descend.

Lemma remove_min_proper t : proper t -> match t with
  | Leaf => remove_min t = Ok None
  | _ => exists x t', remove_min t = Ok (Some (x, t')) /\ proper t' /\ elements t = x :: elements t'
  end.
Proof.
  intros [R (n & B)]. destruct t as [|c l x r]; [reflexivity|]. cbn [remove_min].
  destruct (leftmost c l x r []) as [[[ec e] d] q] eqn:E.
  destruct (leftmost_elements _ _ _ _ _ _ _ _ _ E) as (m & Q & Bf & El). rewrite app_nil_r in Q. subst m.
  destruct (leftmost_path _ _ _ _ _ _ _ _ _ _ _ E (gp_root n) B) as (m & b & G & B' & K).
  { intros _. apply is_red_black in R. exact R. }
  destruct (remove_node_proper q ec Leaf e d m b G B' K) as (t' & Et & Pr). rewrite Et. cbn.
  exists e, t'. split; [reflexivity|]. split; [exact Pr|].
  change (elements l ++ x :: elements r) with (elements (Node c l x r)). rewrite El. f_equal.
  apply remove_node_elements in Et. rewrite Et, Bf. reflexivity.
Qed.

(** ** Searching in a sorted tree *)
Section Search.
Context {O : Type} (ocmp : O -> O -> comparison) (TO : total_order ocmp).
Variables (cmp : A -> A -> Z) (val : A -> O).

Definition agrees (k x : A) : Prop :=
  (cmp k x < 0 <-> ocmp (val k) (val x) = Lt) /\ (cmp k x = 0 <-> ocmp (val k) (val x) = Eq).

Definition sorted (l : list A) : Prop := StronglySorted (fun x y => ocmp (val x) (val y) = Lt) l.

Lemma sorted_app (l1 l2 : list A) : sorted (l1 ++ l2) <->
  sorted l1 /\ sorted l2 /\ (forall x y, In x l1 -> In y l2 -> ocmp (val x) (val y) = Lt).
Proof.
  unfold sorted. induction l1 as [|a l1 IH]; cbn.
  - split; [intros H|intros (_ & H & _); exact H]. split; [constructor|]. split; [exact H|]. intros ? ? [].
  - split.
    + intros H. inversion H as [|? ? H1 H2]; subst. apply IH in H1 as (S1 & S2 & S3). apply Forall_app in H2 as [F1 F2].
      rewrite Forall_forall in F2. split; [constructor; auto|]. split; [exact S2|]. intros x y [<-|Hx] Hy; auto.
    + intros (H & S2 & S3). inversion H as [|? ? H1 H2]; subst. constructor.
      * apply IH. split; [exact H1|]. split; [exact S2|]. intros x y Hx Hy. apply S3; auto.
      * apply Forall_app. split; [exact H2|]. apply Forall_forall. intros y Hy. apply S3; auto.
Qed.

(** Where the descent ends: everything before is smaller, everything after is larger. *)
Lemma descend_order k t : forall p q u, descend cmp k t p = (q, u) -> Forall (agrees k) (elements t) -> sorted (elements t) ->
  exists m, q = m ++ p /\ (forall x, In x (before m) -> ocmp (val x) (val k) = Lt) /\
    (forall x, In x (after m) -> ocmp (val k) (val x) = Lt) /\
    match u with Leaf => True | Node _ _ x _ => val k = val x end.
Proof.
  induction t as [|c l IHl x r IHr]; intros p q u H Ag So; cbn in H.
  - injection H as <- <-. exists []. cbn. split; [reflexivity|]. split; [intros ? []|]. split; [intros ? []|exact I].
  - cbn in Ag, So. apply Forall_app in Ag as [Al Ar]. apply Forall_cons_iff in Ar as [Ax Ar].
    apply sorted_app in So as (Sl & Sr & Slr). inversion Sr as [|? ? Sr' Fx]; subst. rewrite Forall_forall in Fx.
    destruct Ax as [Ax1 Ax2].
    destruct (cmp k x <? 0) eqn:E1.
    + assert (Lk : ocmp (val k) (val x) = Lt) by (apply Ax1; lia).
      destruct (IHl _ _ _ H Al Sl) as (m & -> & Hb & Ha & Hu). exists (m ++ [InLeft c x r]).
      rewrite <- app_assoc. split; [reflexivity|]. rewrite before_app, after_app. cbn. split; [exact Hb|]. split; [|exact Hu].
      intros y Hy. rewrite app_nil_r in Hy. apply in_app_or in Hy as [Hy|[<-|Hy]]; [auto|auto|].
      eapply (ord_trans _ TO); [exact Lk|auto].
    + destruct (0 <? cmp k x) eqn:E2.
      * assert (Lk : ocmp (val x) (val k) = Lt).
        { rewrite (ord_sym _ TO). destruct (ocmp (val k) (val x)) eqn:Ec; [|destruct Ax1 as [_ Ax1]; specialize (Ax1 eq_refl); lia|reflexivity].
          destruct Ax2 as [_ Ax2]; specialize (Ax2 eq_refl); lia. }
        destruct (IHr _ _ _ H Ar Sr') as (m & -> & Hb & Ha & Hu). exists (m ++ [InRight c l x]).
        rewrite <- app_assoc. split; [reflexivity|]. rewrite before_app, after_app. cbn. rewrite app_nil_r.
        split; [|split; [exact Ha|exact Hu]]. intros y Hy. apply in_app_or in Hy as [Hy|Hy]; [|auto].
        apply in_app_or in Hy as [Hy|[<-|[]]]; [|auto]. eapply (ord_trans _ TO); [apply Slr; [exact Hy|left; reflexivity]|exact Lk].
      * injection H as <- <-. exists []. split; [reflexivity|]. split; [intros ? []|]. split; [intros ? []|].
        apply (ord_eq _ TO). apply Ax2. lia.
Qed.

(** The three parts into which a search splits the elements. *)
Lemma descend_split k t q u : descend cmp k t [] = (q, u) -> Forall (agrees k) (elements t) -> sorted (elements t) ->
  exists lo hi, before q = lo /\ after q = hi /\ elements t = lo ++ elements u ++ hi /\
    (forall x, In x lo -> ocmp (val x) (val k) = Lt) /\ (forall x, In x hi -> ocmp (val k) (val x) = Lt) /\
    match u with Leaf => True | Node _ _ x _ => val k = val x end.
Proof.
  intros H Ag So. pose proof (descend_plug cmp _ _ _ _ _ H) as [Hp _]. cbn in Hp.
  destruct (descend_order _ _ _ _ _ H Ag So) as (m & Q & Hb & Ha & Hu). rewrite app_nil_r in Q. subst m.
  exists (before q), (after q). rewrite <- Hp, elements_plug. auto 10.
Qed.
End Search.
End Proofs.
