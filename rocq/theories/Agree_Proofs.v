From Verif Require Import Base Wire_Spec Secure_Model Secure_Spec Agree_Model Agree_Spec.

(** ** finite maps *)
Lemma find_del_same {V} i (l : list (Z * V)) : find i (del i l) = None.
Proof. induction l as [|[j v] l IH]; auto. unfold del in *. cbn [filter fst]. destruct (Z.eqb_spec j i); cbn [negb]; auto. cbn [find]. destruct (Z.eqb_spec j i); [contradiction|auto]. Qed.
Lemma find_del_other {V} i j (l : list (Z * V)) : j <> i -> find j (del i l) = find j l.
Proof.
  intros N. induction l as [|[m v] l IH]; auto. unfold del in *. cbn [filter fst find]. destruct (Z.eqb_spec m i); cbn [negb].
  - destruct (Z.eqb_spec m j); [lia|auto].
  - cbn [find]. destruct (m =? j); auto.
Qed.
Lemma find_del {V} i j (l : list (Z * V)) e : find j (del i l) = Some e -> find j l = Some e.
Proof. intros H. destruct (Z.eq_dec j i) as [-> | N]; [rewrite find_del_same in H; discriminate|]. rewrite find_del_other in H; auto. Qed.
Lemma find_put_same {V} i v (l : list (Z * V)) : find i (put i v l) = Some v.
Proof. unfold put. cbn [find]. rewrite Z.eqb_refl. auto. Qed.
Lemma find_put_other {V} i j v (l : list (Z * V)) : j <> i -> find j (put i v l) = find j l.
Proof. intros N. unfold put. cbn [find]. destruct (Z.eqb_spec i j); [lia|]. apply find_del_other. auto. Qed.
Lemma find_put_new {V} i j v (l : list (Z * V)) : find j (put_new i v l) = match find j l with Some e => Some e | None => if i =? j then Some v else None end.
Proof.
  unfold put_new. destruct (find i l) eqn:E; cbn [find].
  - destruct (find j l) eqn:F; auto. destruct (Z.eqb_spec i j); auto. congruence.
  - destruct (Z.eqb_spec i j) as [-> |]; [rewrite E; auto|]. destruct (find j l); auto.
Qed.
Lemma find_in {V} id (e : V) l : find id l = Some e -> In (id, e) l.
Proof. induction l as [|[j v] l IH]; [discriminate|]. cbn [find]. destruct (Z.eqb_spec j id) as [-> |]; [intros X; injection X as ->; left; auto|right; auto]. Qed.
Lemma in_del {V} i id (e : V) l : In (id, e) (del i l) <-> id <> i /\ In (id, e) l.
Proof. unfold del. rewrite filter_In. cbn [fst]. destruct (Z.eqb_spec id i); cbn [negb]; intuition discriminate. Qed.
Lemma in_put {V} i v id (e : V) l : In (id, e) (put i v l) -> id = i /\ e = v \/ In (id, e) l.
Proof. unfold put. cbn [In]. rewrite in_del. intros [X|X]; [injection X as <- <-; auto|tauto]. Qed.
Lemma in_put_new {V} i v id (e : V) l : In (id, e) (put_new i v l) -> id = i /\ e = v \/ In (id, e) l.
Proof. unfold put_new. destruct (find i l); [auto|]. cbn [In]. intros [X|X]; [injection X as <- <-; auto|tauto]. Qed.
Lemma find_none_in {V} id (e : V) l : find id l = None -> ~ In (id, e) l.
Proof. induction l as [|[j v] l IH]; [auto|]. cbn [find]. destruct (Z.eqb_spec j id) as [-> |N]; [discriminate|]. intros X [Y|Y]; [injection Y as -> ->; contradiction|exact (IH X Y)]. Qed.

Section Agree.
Context {K : Type} (x : exchange K) (pub : Z -> Z) (half : Z -> Z -> bool -> K) (L : exchange_law x pub half).
Context (kdec : forall a b : K, {a = b} + {a <> b}) (nodes : Z -> Z * Z) (who : Z -> Z) (ND SF RF : Z -> Prop) (H : list (ev K)).
Context (Hn : forall n, snd (nodes n) = pub (fst (nodes n))) (Hd : distinct_ids SF RF) (Hp : forall e, In e H -> proper ND SF RF who e).
Notation pk n := (snd (nodes n)).

Definition sess (me peer : Z) (rc : bool) : session K := if rc then mkS false (Some (half (pk peer) (pk me) true)) (Some (half (pk peer) (pk me) false)) else mkS false (Some (half (pk me) (pk peer) false)) (Some (half (pk me) (pk peer) true)).
Lemma new_session_ok me peer rc : new_session x (nodes me) (pk peer) rc = Some (sess me peer rc).
Proof.
  unfold new_session, crypto_session, sess. pose proof (xl_client _ _ _ L (fst (nodes me)) (pk peer)) as C. pose proof (xl_server _ _ _ L (fst (nodes me)) (pk peer)) as S.
  rewrite <- Hn in C, S. destruct rc; [rewrite S|rewrite C]; reflexivity.
Qed.

(** entries of a sender and of a receiver *)
Definition send_ok (i id : Z) (e : entry K) : Prop :=
  (exists r w, SF id /\ who id = i /\ In (NewSender i id r w) H /\ e = mkE KShared (mkS true (Some r) (Some w))) \/
  (exists f g, SF f /\ who f = i /\ RF g /\ In (SenderGets i g false) H /\ id = private_id f g /\ e = mkE KPrivate (sess i (who g) false)) \/
  (exists f g, SF f /\ who f = i /\ RF g /\ In (SenderGets i g false) H /\ id = initial_id f g /\ e = mkE KInitial (sess i (who g) true)).
Definition given (f g : Z) (w : K) : Prop := RF g /\ In (SenderGets (who f) g false) H /\ exists r, In (NewSender (who f) f r w) H.
Definition recv_ok (j id : Z) (e : entry K) : Prop :=
  (exists r w, RF id /\ who id = j /\ In (NewReceiver j id r w) H /\ e = mkE KShared (mkS true (Some r) (Some w))) \/
  (exists f g, SF f /\ RF g /\ who g = j /\ id = private_id f g /\ e = mkE KPrivate (sess j (who f) true)) \/
  (exists f g, SF f /\ RF g /\ who g = j /\ id = initial_id f g /\ e = mkE KInitial (sess j (who f) false)) \/
  (exists g w, SF id /\ who g = j /\ given id g w /\ e = mkE KShared (mkS false (Some w) None)).
Definition both (t : tree K) : Prop := forall f g, SF f -> RF g -> (find (private_id f g) t = None <-> find (initial_id f g) t = None).
Definition body_ok (i id : Z) (b : list (Z * K)) : Prop :=
  exists f g, SF f /\ who f = i /\ RF g /\ In (SenderGets i g false) H /\ id = initial_id f g /\ forall f' w, In (f', w) b -> SF f' /\ who f' = i /\ exists r, In (NewSender i f' r w) H.
Record inv (y : sys K) : Prop := {
  v_scur : forall i, ND i -> SF (c_cur (y_send y i)) /\ who (c_cur (y_send y i)) = i;
  v_rcur : forall j, ND j -> RF (c_cur (y_recv y j)) /\ who (c_cur (y_recv y j)) = j;
  v_send : forall i id e, In (id, e) (c_tree (y_send y i)) -> send_ok i id e;
  v_recv : forall j id e, find id (c_tree (y_recv y j)) = Some e -> recv_ok j id e;
  v_sboth : forall i, both (c_tree (y_send y i));
  v_rboth : forall j, both (c_tree (y_recv y j));
  v_out : forall i id b, In (id, b) (c_out (y_send y i)) -> body_ok i id b;
  v_net : forall id k b, In (id, k, b) (y_net y) -> exists i, body_ok i id b }.

Lemma ids_pp f g f' g' : SF f -> RF g -> SF f' -> RF g' -> private_id f g = private_id f' g' -> f = f' /\ g = g'.
Proof. intros A B C D E. destruct Hd as (_ & X). exact (proj1 (proj1 (X f g A B) f' g' C D) E). Qed.
Lemma ids_ii f g f' g' : SF f -> RF g -> SF f' -> RF g' -> initial_id f g = initial_id f' g' -> f = f' /\ g = g'.
Proof. intros A B C D E. destruct Hd as (_ & X). exact (proj1 (proj2 (proj1 (X f g A B) f' g' C D)) E). Qed.
Lemma ids_pi f g f' g' : SF f -> RF g -> SF f' -> RF g' -> private_id f g <> initial_id f' g'.
Proof. intros A B C D. destruct Hd as (_ & X). apply (proj1 (X f g A B) f' g' C D). Qed.
Lemma ids_p f g h : SF f -> RF g -> SF h \/ RF h -> private_id f g <> h.
Proof. intros A B C. destruct Hd as (_ & X). apply (proj2 (X f g A B) h C). Qed.
Lemma ids_i f g h : SF f -> RF g -> SF h \/ RF h -> initial_id f g <> h.
Proof. intros A B C. destruct Hd as (_ & X). apply (proj2 (X f g A B) h C). Qed.
Lemma ids_sr f g : SF f -> RF g -> f <> g.
Proof. destruct Hd as (X & _). auto. Qed.

Lemma update_tree_spec me peer rc f g d (t : tree K) : SF f -> RF g -> both t ->
  update_tree x (nodes me) (pk peer) rc (private_id f g) (initial_id f g) d t =
  if d then (del (initial_id f g) (del (private_id f g) t), false)
  else match find (initial_id f g) t with
       | None => (put (initial_id f g) (mkE KInitial (sess me peer (negb rc))) (put (private_id f g) (mkE KPrivate (sess me peer rc)) t), true)
       | Some _ => (t, false)
       end.
Proof.
  intros A B T. unfold update_tree. destruct d; auto. rewrite !new_session_ok. specialize (T f g A B).
  destruct (find (private_id f g) t), (find (initial_id f g) t); cbn [orb option_map]; auto; exfalso; destruct T; intuition discriminate.
Qed.
Lemma both_put f g a b t : SF f -> RF g -> both t -> both (put (initial_id f g) b (put (private_id f g) a t)).
Proof.
  intros A B T f' g' A' B'. pose proof (ids_pi f g f' g' A B A' B'). pose proof (ids_pi f' g' f g A' B' A B). pose proof (ids_pi f g f g A B A B).
  destruct (Z.eq_dec (initial_id f' g') (initial_id f g)) as [E|N].
  - rewrite E, find_put_same. destruct (ids_ii _ _ _ _ A' B' A B E) as (-> & ->). rewrite find_put_other, find_put_same by auto. split; discriminate.
  - assert (private_id f' g' <> private_id f g). { intros E. destruct (ids_pp _ _ _ _ A' B' A B E) as (-> & ->). auto. }
    rewrite !find_put_other by auto. apply T; auto.
Qed.
Lemma both_del f g t : SF f -> RF g -> both t -> both (del (initial_id f g) (del (private_id f g) t)).
Proof.
  intros A B T f' g' A' B'. pose proof (ids_pi f g f' g' A B A' B'). pose proof (ids_pi f' g' f g A' B' A B). pose proof (ids_pi f g f g A B A B).
  destruct (Z.eq_dec (initial_id f' g') (initial_id f g)) as [E|N].
  - rewrite E, find_del_same. destruct (ids_ii _ _ _ _ A' B' A B E) as (-> & ->). rewrite find_del_other, find_del_same by auto. tauto.
  - assert (private_id f' g' <> private_id f g). { intros E. destruct (ids_pp _ _ _ _ A' B' A B E) as (-> & ->). auto. }
    rewrite !find_del_other by auto. apply T; auto.
Qed.
Lemma both_same (t t' : tree K) : (forall f g, SF f -> RF g -> find (private_id f g) t' = find (private_id f g) t /\ find (initial_id f g) t' = find (initial_id f g) t) -> both t -> both t'.
Proof. intros E T f g A B. destruct (E f g A B) as (-> & ->). apply T; auto. Qed.
Lemma both_update me peer rc f g d t : SF f -> RF g -> both t -> both (fst (update_tree x (nodes me) (pk peer) rc (private_id f g) (initial_id f g) d t)).
Proof.
  intros A B T. rewrite update_tree_spec; auto. destruct d; [apply both_del; auto|]. destruct (find (initial_id f g) t); auto. apply both_put; auto.
Qed.
Lemma update_tree_find me peer rc f g d t id e : SF f -> RF g -> both t -> find id (fst (update_tree x (nodes me) (pk peer) rc (private_id f g) (initial_id f g) d t)) = Some e ->
  find id t = Some e \/ d = false /\ (id = private_id f g /\ e = mkE KPrivate (sess me peer rc) \/ id = initial_id f g /\ e = mkE KInitial (sess me peer (negb rc))).
Proof.
  intros A B T. rewrite update_tree_spec; auto. destruct d; cbn [fst].
  - intros E. apply find_del in E. apply find_del in E. auto.
  - destruct (find (initial_id f g) t); [auto|]. cbn [fst]. intros E.
    destruct (Z.eq_dec id (initial_id f g)) as [-> | N]; [rewrite find_put_same in E; injection E as <-; auto|]. rewrite find_put_other in E by auto.
    destruct (Z.eq_dec id (private_id f g)) as [-> | N']; [rewrite find_put_same in E; injection E as <-; auto|]. rewrite find_put_other in E by auto. auto.
Qed.

Lemma update_tree_in me peer rc f g d t id e : SF f -> RF g -> both t -> In (id, e) (fst (update_tree x (nodes me) (pk peer) rc (private_id f g) (initial_id f g) d t)) ->
  In (id, e) t \/ d = false /\ (id = private_id f g /\ e = mkE KPrivate (sess me peer rc) \/ id = initial_id f g /\ e = mkE KInitial (sess me peer (negb rc))).
Proof.
  intros A B T. rewrite update_tree_spec; auto. destruct d; cbn [fst].
  - rewrite !in_del. tauto.
  - destruct (find (initial_id f g) t); [auto|]. cbn [fst]. intros E. apply in_put in E. destruct E as [E|E]; [tauto|]. apply in_put in E. tauto.
Qed.

(** import: entries stay or are shared ones with the new key *)
Lemma import1_find t b id : SF (fst b) -> (forall id e, find id t = Some e -> exists j, recv_ok j id e) ->
  find id (import1 t b) = if fst b =? id then Some (mkE KShared (mkS false (Some (snd b)) None)) else find id t.
Proof.
  intros A T. unfold import1. destruct (find (fst b) t) as [old|] eqn:E.
  - destruct (Z.eqb_spec (fst b) id) as [<- | N]; [|rewrite find_put_other by auto; auto]. rewrite find_put_same.
    destruct (T _ _ E) as (j & R). destruct R as [(r & w & B & _) | [(f & g & B & C & _ & D & _) | [(f & g & B & C & _ & D & _) | (g & w & _ & _ & _ & ->)]]].
    + exfalso. exact (ids_sr _ _ A B eq_refl).
    + exfalso. exact (ids_p _ _ _ B C (or_introl A) (eq_sym D)).
    + exfalso. exact (ids_i _ _ _ B C (or_introl A) (eq_sym D)).
    + reflexivity.
  - rewrite find_put_new. destruct (Z.eqb_spec (fst b) id) as [<- | N]; [rewrite E; auto|]. destruct (find id t); auto.
Qed.
Lemma imports j g b t : RF g -> who g = j -> (forall id e, find id t = Some e -> recv_ok j id e) -> both t ->
  (forall f w, In (f, w) b -> SF f /\ given f g w) ->
  (forall id e, find id (fold_left import1 b t) = Some e -> recv_ok j id e) /\ both (fold_left import1 b t) /\
  (forall id, find id t <> None -> find id (fold_left import1 b t) <> None).
Proof.
  intros A B. revert t. induction b as [|[f w] b IH]; intros t T D G; [cbn; auto|]. cbn [fold_left].
  destruct (G f w (or_introl eq_refl)) as (F & Gf).
  assert (I1 : forall id, find id (import1 t (f, w)) = if f =? id then Some (mkE KShared (mkS false (Some w) None)) else find id t).
  { intros id. apply (import1_find t (f, w) id F). intros. exists j. apply T; auto. }
  destruct (IH (import1 t (f, w))) as (P1 & P2 & P3).
  - intros id e. rewrite I1. destruct (Z.eqb_spec f id) as [<- | N]; [|auto]. intros E. injection E as <-. right. right. right. exists g, w. auto.
  - apply (both_same t); auto. intros f' g' A' B'. rewrite !I1. pose proof (ids_p f' g' f A' B' (or_introl F)). pose proof (ids_i f' g' f A' B' (or_introl F)).
    destruct (Z.eqb_spec f (private_id f' g')), (Z.eqb_spec f (initial_id f' g')); try congruence. auto.
  - intros f' w' X. apply G. right. auto.
  - split; [exact P1|]. split; [exact P2|]. intros id X. apply P3. rewrite I1. destruct (f =? id); congruence.
Qed.

Lemma at_same {V} (m : Z -> V) i v : at_node m i v i = v. Proof. unfold at_node. rewrite Z.eqb_refl. auto. Qed.
Lemma at_other {V} (m : Z -> V) i j v : j <> i -> at_node m i v j = m j. Proof. intros N. unfold at_node. destruct (Z.eqb_spec j i); [contradiction|auto]. Qed.
Ltac node j i := destruct (Z.eq_dec j i) as [-> | ?]; [rewrite ?at_same|rewrite ?at_other by assumption].

(** a sender that changes *)
Lemma inv_send y i c : inv y -> (ND i -> SF (c_cur c) /\ who (c_cur c) = i) -> (forall id e, In (id, e) (c_tree c) -> send_ok i id e) -> both (c_tree c) ->
  (forall id b, In (id, b) (c_out c) -> body_ok i id b) -> inv (mkY (at_node (y_send y) i c) (y_recv y) (y_net y)).
Proof.
  intros [A B C D E F G I] P1 P2 P3 P4. constructor; cbn [y_send y_recv y_net]; auto.
  - intros n. node n i; auto.
  - intros n id e. node n i; auto.
  - intros n. node n i; auto.
  - intros n id b. node n i; auto.
Qed.
Lemma inv_recv y j c : inv y -> (ND j -> RF (c_cur c) /\ who (c_cur c) = j) -> (forall id e, find id (c_tree c) = Some e -> recv_ok j id e) -> both (c_tree c) -> inv (mkY (y_send y) (at_node (y_recv y) j c) (y_net y)).
Proof.
  intros [A B C D E F G I] P1 P2 P3. constructor; cbn [y_send y_recv y_net]; auto.
  - intros n. node n j; auto.
  - intros n id e. node n j; auto.
  - intros n. node n j; auto.
Qed.

(** one event *)
Lemma sender_gets_inv y i g d : inv y -> ND i -> RF g -> (d = false -> In (SenderGets i g false) H) -> inv (mkY (at_node (y_send y) i (sender_gets x (nodes i) g (pk (who g)) d (y_send y i))) (y_recv y) (y_net y)).
Proof.
  intros V Ni G Hg. destruct (v_scur _ V i Ni) as (A & B). unfold sender_gets.
  destruct (Z.eqb_spec g (c_cur (y_send y i))) as [E|N]; [exfalso; exact (ids_sr _ _ A G (eq_sym E))|].
  pose proof (both_update i (who g) false (c_cur (y_send y i)) g d (c_tree (y_send y i)) A G (v_sboth _ V i)) as Bo.
  pose proof (fun id e => update_tree_in i (who g) false (c_cur (y_send y i)) g d (c_tree (y_send y i)) id e A G (v_sboth _ V i)) as In1.
  pose proof (update_tree_spec i (who g) false (c_cur (y_send y i)) g d (c_tree (y_send y i)) A G (v_sboth _ V i)) as Sp.
  destruct (update_tree x (nodes i) (pk (who g)) false (private_id (c_cur (y_send y i)) g) (initial_id (c_cur (y_send y i)) g) d (c_tree (y_send y i))) as [t sent].
  cbn [fst] in Bo, In1.
  assert (T : forall id e, In (id, e) t -> send_ok i id e).
  { intros id e X. destruct (In1 _ _ X) as [Y|(-> & [(-> & ->) | (-> & ->)])]; [apply (v_send _ V); auto|right; left|right; right]; exists (c_cur (y_send y i)), g; auto 7. }
  apply inv_send; cbn [c_cur c_tree c_out]; auto.
  intros id b X. apply in_app_iff in X. destruct X as [X|X]; [apply (v_out _ V); auto|].
  destruct (find (c_cur (y_send y i)) t) as [e|] eqn:E; [|contradiction]. destruct sent; [|contradiction]. destruct X as [X|[]]. injection X as <- <-.
  assert (D : d = false). { destruct d; auto. discriminate. }
  exists (c_cur (y_send y i)), g. split; [exact A|]. split; [exact B|]. split; [exact G|]. split; [apply Hg; auto|]. split; [reflexivity|].
  intros f' w X. unfold key_body in X. destruct (s_write (e_keys e)) as [k|] eqn:W; [|contradiction]. destruct X as [X|[]]. injection X as <- <-.
  split; [exact A|]. split; [exact B|]. apply find_in in E. destruct (T _ _ E) as [(r & w & _ & _ & Hw & ->) | [(f & g' & F & _ & G' & _ & Ei & _) | (f & g' & F & _ & G' & _ & Ei & _)]].
  - cbn in W. injection W as ->. exists r. auto.
  - exfalso. exact (ids_p _ _ _ F G' (or_introl A) (eq_sym Ei)).
  - exfalso. exact (ids_i _ _ _ F G' (or_introl A) (eq_sym Ei)).
Qed.
Lemma both_put_new h e t : SF h \/ RF h -> both t -> both (put_new h e t).
Proof.
  intros A T. apply (both_same t); auto. intros f g F G. rewrite !find_put_new. pose proof (ids_p f g h F G A). pose proof (ids_i f g h F G A).
  destruct (Z.eqb_spec h (private_id f g)), (Z.eqb_spec h (initial_id f g)); try congruence. split; [destruct (find (private_id f g) t)|destruct (find (initial_id f g) t)]; auto.
Qed.
Lemma both_del1 h t : SF h \/ RF h -> both t -> both (del h t).
Proof. intros A T. apply (both_same t); auto. intros f g F G. rewrite !find_del_other; auto; [apply ids_i|apply ids_p]; auto. Qed.
Lemma step_inv y e : inv y -> In e H -> inv (step x kdec nodes who e y).
Proof.
  intros V Ie. pose proof (Hp e Ie) as P. destruct e as [i g d|j f d|i f r w|i f|i f|j g r w|j g|i|j n]; cbn [step proper] in *.
  - destruct P. apply sender_gets_inv; auto. intros ->. auto.
  - destruct P as (Nj & P). destruct (v_rcur _ V j Nj) as (A & B). apply inv_recv; cbn [receiver_gets c_cur c_tree]; auto; [|apply both_update; auto; apply (v_rboth _ V)].
    intros id e X. apply update_tree_find in X; auto; [|apply (v_rboth _ V)]. destruct X as [X|(-> & [(-> & ->) | (-> & ->)])]; [apply (v_recv _ V); auto|right; left|right; right; left]; exists f, (c_cur (y_recv y j)); auto 7.
  - destruct P as (Ni & P & Pw). assert (T : forall id e, In (id, e) (put_new f (mkE KShared (mkS true (Some r) (Some w))) (c_tree (y_send y i))) -> send_ok i id e).
    { intros id e X. apply in_put_new in X. destruct X as [(-> & ->) | X]; [left; exists r, w; auto|apply (v_send _ V); auto]. }
    apply inv_send; cbn [new_own c_cur c_tree c_out]; auto; [apply (v_scur _ V)|apply both_put_new; auto; apply (v_sboth _ V)|].
    intros id b X. apply in_app_iff in X. destruct X as [X|X]; [apply (v_out _ V); auto|]. apply in_map_iff in X. destruct X as ([id' e] & X & Y). apply filter_In in Y. destruct Y as (Y & Z0).
    cbn [fst snd] in *. injection X as <- <-. destruct (T _ _ Y) as [(r' & w' & _ & _ & _ & ->) | [(f' & g' & _ & _ & _ & _ & _ & ->) | (f' & g' & F & Fw & G' & Gi & Ei & _)]]; cbn [e_kind] in Z0; try (rewrite andb_false_r in Z0; discriminate).
    exists f', g'. split; [exact F|]. split; [exact Fw|]. split; [exact G'|]. split; [exact Gi|]. split; [exact Ei|]. intros f1 w1 [X|[]]. injection X as <- <-. split; [exact P|]. split; [exact Pw|]. exists r. auto.
  - destruct P as (Ni & P & Pw). apply inv_send; cbn [end_own c_cur c_tree c_out]; auto; [apply (v_scur _ V)| |apply both_del1; auto; apply (v_sboth _ V)|apply (v_out _ V)].
    intros id e X. apply in_del in X. apply (v_send _ V). tauto.
  - destruct P as (Ni & P). apply inv_send; cbn [announce c_cur c_tree c_out]; auto; [apply (v_send _ V)|apply (v_sboth _ V)|apply (v_out _ V)].
  - destruct P as (Ni & P & Pw). apply inv_recv; cbn [new_own c_cur c_tree c_out]; auto; [apply (v_rcur _ V)| |apply both_put_new; auto; apply (v_rboth _ V)].
    intros id e. rewrite find_put_new. destruct (find id (c_tree (y_recv y j))) eqn:E; [intros X; injection X as <-; apply (v_recv _ V); auto|].
    destruct (Z.eqb_spec g id) as [<- |]; [|discriminate]. intros X. injection X as <-. left. exists r, w. auto.
  - destruct P as (Nj & P). apply inv_recv; cbn [announce c_cur c_tree c_out]; auto; [apply (v_recv _ V)|apply (v_rboth _ V)].
  - unfold flush. destruct (c_out (y_send y i)) as [|[id b] o] eqn:Eo.
    + assert (V1 := inv_send y i (y_send y i) V (v_scur _ V i) (v_send _ V i) (v_sboth _ V i) (v_out _ V i)). cbn [app]. rewrite app_nil_r. exact V1.
    + assert (V1 : inv (mkY (at_node (y_send y) i (mkC (c_cur (y_send y i)) (c_tree (y_send y i)) o)) (y_recv y) (y_net y))).
      { apply inv_send; cbn [c_cur c_tree c_out]; auto; [apply (v_scur _ V)|apply (v_send _ V)|apply (v_sboth _ V)|]. intros id' b' X. apply (v_out _ V). rewrite Eo. right. auto. }
      destruct V1 as [A B C D E F G I]. constructor; auto. cbn [y_net] in *. intros id' k' b' X. apply in_app_iff in X. destruct X as [X|X]; [eapply I; eauto|].
      exists i. apply (v_out _ V). rewrite Eo. left. destruct (find id (c_tree (y_send y i))) as [e|]; [|contradiction]. destruct (s_write (e_keys e)); [|contradiction]. destruct X as [X|[]]. congruence.
  - destruct (nth_error (y_net y) n) as [[[id k] b]|] eqn:En; [|exact V]. apply nth_error_In in En. unfold deliver.
    assert (V1 := inv_recv y j (y_recv y j) V (v_rcur _ V j) (v_recv _ V j) (v_rboth _ V j)).
    destruct (find id (c_tree (y_recv y j))) as [e|] eqn:E; [|exact V1]. destruct (e_kind e) eqn:Ek; try exact V1. destruct (s_read (e_keys e)) as [k'|]; [|exact V1]. destruct (kdec k k'); [|exact V1].
    destruct (v_net _ V _ _ _ En) as (i & f & g & F & Fw & G & Gi & Ei & Bo).
    destruct (v_recv _ V _ _ _ E) as [(r & w & _ & _ & _ & ->) | [(f' & g' & _ & _ & _ & _ & ->) | [(f' & g' & F' & G' & Gw & Ei' & ->) | (g' & w & _ & _ & _ & ->)]]]; try discriminate.
    rewrite Ei in Ei'. destruct (ids_ii _ _ _ _ F G F' G' Ei') as (<- & <-).
    destruct (imports j g b (c_tree (y_recv y j)) G Gw (v_recv _ V j) (v_rboth _ V j)) as (I1 & I2 & _).
    { intros f' w X. destruct (Bo _ _ X) as (A1 & A2 & A3). split; [exact A1|]. split; [exact G|]. rewrite A2. auto. }
    apply inv_recv; cbn [c_cur c_tree]; auto. apply (v_rcur _ V).
Qed.
Lemma start_inv cs cr : (forall i, ND i -> (SF (cs i) /\ who (cs i) = i) /\ (RF (cr i) /\ who (cr i) = i)) -> inv (start cs cr).
Proof. intros A. constructor; cbn; try (intros n X; apply A; exact X); auto; try discriminate; try contradiction; intros n f g _ _; tauto. Qed.
Lemma run_inv h y : inv y -> (forall e, In e h -> In e H) -> inv (run x kdec nodes who h y).
Proof. revert y. induction h as [|e h IH]; intros y V I; [exact V|]. cbn. apply IH; [apply step_inv; auto; apply I; left; auto|intros e' X; apply I; right; auto]. Qed.

(** agreement *)
Lemma agree y i j id k k' : one_key H -> inv y -> encrypts y i id k -> decrypts y j id k' -> k = k'.
Proof.
  intros O V (e & E & W) (e' & E' & R). apply find_in in E. pose proof (v_recv _ V _ _ _ E') as Re.
  destruct (v_send _ V _ _ _ E) as [(r & w & F & Fw & N & ->) | [(f & g & F & Fw & G & _ & Ei & ->) | (f & g & F & Fw & G & _ & Ei & ->)]]; cbn [e_keys s_write] in W;
  destruct Re as [(r' & w' & F' & _ & _ & ->) | [(f' & g' & F' & G' & Gw & Ei' & ->) | [(f' & g' & F' & G' & Gw & Ei' & ->) | (g' & w' & F' & Gw & (_ & _ & r' & N') & ->)]]]; cbn [e_keys s_read] in R.
  - exfalso. exact (ids_sr _ _ F F' eq_refl).
  - exfalso. exact (ids_p _ _ _ F' G' (or_introl F) (eq_sym Ei')).
  - exfalso. exact (ids_i _ _ _ F' G' (or_introl F) (eq_sym Ei')).
  - injection W as <-. injection R as <-. eapply O; eauto.
  - exfalso. exact (ids_p _ _ _ F G (or_intror F') (eq_sym Ei)).
  - rewrite Ei in Ei'. destruct (ids_pp _ _ _ _ F G F' G' Ei') as (<- & <-). cbn in W, R. congruence.
  - rewrite Ei in Ei'. exfalso. exact (ids_pi _ _ _ _ F G F' G' Ei').
  - exfalso. exact (ids_p _ _ _ F G (or_introl F') (eq_sym Ei)).
  - exfalso. exact (ids_i _ _ _ F G (or_intror F') (eq_sym Ei)).
  - rewrite Ei in Ei'. exfalso. exact (ids_pi _ _ _ _ F' G' F G (eq_sym Ei')).
  - rewrite Ei in Ei'. destruct (ids_ii _ _ _ _ F G F' G' Ei') as (<- & <-). cbn in W, R. congruence.
  - exfalso. exact (ids_i _ _ _ F G (or_introl F') (eq_sym Ei)).
Qed.

(** ** key messages arrive *)
Lemma sender_gets_eq y i g d : inv y -> ND i -> RF g -> let c := y_send y i in
  sender_gets x (nodes i) g (pk (who g)) d c =
  if d then mkC (c_cur c) (del (initial_id (c_cur c) g) (del (private_id (c_cur c) g) (c_tree c))) (c_out c)
  else match find (initial_id (c_cur c) g) (c_tree c) with
       | None => mkC (c_cur c) (put (initial_id (c_cur c) g) (mkE KInitial (sess i (who g) true)) (put (private_id (c_cur c) g) (mkE KPrivate (sess i (who g) false)) (c_tree c)))
                   (c_out c ++ match find (c_cur c) (c_tree c) with Some e => [(initial_id (c_cur c) g, key_body (c_cur c) (e_keys e))] | None => [] end)
       | Some _ => c
       end.
Proof.
  intros V Ni G c. subst c. destruct (v_scur _ V i Ni) as (A & B). unfold sender_gets.
  destruct (Z.eqb_spec g (c_cur (y_send y i))) as [E|N]; [exfalso; exact (ids_sr _ _ A G (eq_sym E))|].
  rewrite (update_tree_spec i (who g) false (c_cur (y_send y i)) g d (c_tree (y_send y i)) A G (v_sboth _ V i)).
  pose proof (ids_i _ _ _ A G (or_introl A)). pose proof (ids_p _ _ _ A G (or_introl A)).
  destruct d. { destruct (find _ _); rewrite app_nil_r; auto. }
  destruct (find (initial_id (c_cur (y_send y i)) g) (c_tree (y_send y i))).
  - destruct (find _ _); rewrite app_nil_r; destruct (y_send y i); auto.
  - rewrite !find_put_other by auto. cbn [negb]. auto.
Qed.
Lemma kept y e i f g : inv y -> In e H -> SF f -> RF g -> e <> SenderGets i g true -> find (initial_id f g) (c_tree (y_send y i)) <> None ->
  find (initial_id f g) (c_tree (y_send (step x kdec nodes who e y) i)) <> None.
Proof.
  intros V Ie F G Ne X. pose proof (Hp e Ie) as P. destruct e as [n g' d|j f' d|n f' r w|n f'|n f'|j g' r w|j g'|n|j n]; cbn [step proper] in *; try exact X.
  - cbn [y_send]. node i n; auto. destruct P as (Nn & G'). rewrite sender_gets_eq by auto. destruct (v_scur _ V n Nn) as (A & _). destruct d; cbn [c_tree].
    + assert (g' <> g) by congruence. assert (initial_id f g <> initial_id (c_cur (y_send y n)) g') by (intros E; apply ids_ii in E; auto; intuition congruence).
      pose proof (ids_pi (c_cur (y_send y n)) g' f g A G' F G). rewrite !find_del_other by auto. auto.
    + destruct (find (initial_id (c_cur (y_send y n)) g') (c_tree (y_send y n))) eqn:E; [auto|]. cbn [c_tree].
      destruct (Z.eq_dec (initial_id f g) (initial_id (c_cur (y_send y n)) g')) as [Q|Q]; [rewrite Q, find_put_same; discriminate|]. rewrite find_put_other by auto.
      pose proof (ids_pi (c_cur (y_send y n)) g' f g A G' F G). rewrite find_put_other by auto. auto.
  - cbn [y_send]. node i n; auto. cbn [new_own c_tree]. rewrite find_put_new. destruct (find (initial_id f g) (c_tree (y_send y n))); [discriminate|contradiction].
  - cbn [y_send]. node i n; auto. destruct P as (_ & F' & _). cbn [end_own c_tree]. rewrite find_del_other; auto. apply ids_i; auto.
  - cbn [y_send]. node i n; auto.
  - unfold flush. destruct (c_out (y_send y n)) as [|[a b] o]; cbn [y_send]; node i n; auto.
  - destruct (nth_error (y_net y) n); auto.
Qed.
Lemma net_grows1 y e m : In m (y_net y) -> In m (y_net (step x kdec nodes who e y)).
Proof.
  intros X. destruct e; cbn [step y_net]; auto.
  - destruct (flush (y_send y i)) as [c l]. cbn [y_net]. apply in_or_app. auto.
  - destruct (nth_error (y_net y) n); auto.
Qed.
Lemma net_grows h y m : In m (y_net y) -> In m (y_net (run x kdec nodes who h y)).
Proof. revert y. induction h as [|e h IH]; intros y X; auto. cbn. apply IH, net_grows1, X. Qed.
Lemma out_stays y e i p m : inv y -> In e H -> nth_error (c_out (y_send y i)) p = Some m -> (forall n, e = Flush n -> n <> i) -> nth_error (c_out (y_send (step x kdec nodes who e y) i)) p = Some m.
Proof.
  intros V Ie X N. pose proof (Hp e Ie) as P.
  assert (App : forall l, nth_error (c_out (y_send y i) ++ l) p = Some m). { intros l. rewrite nth_error_app1; auto. apply nth_error_Some. congruence. }
  destruct e as [n g' d|j f' d|n f' r w|n f'|n f'|j g' r w|j g'|n|j n]; cbn [step proper] in *; try exact X.
  - cbn [y_send]. node i n; auto. destruct P as (Nn & G'). rewrite sender_gets_eq by auto. destruct d; cbn [c_out]; auto. destruct (find (initial_id (c_cur (y_send y n)) g') (c_tree (y_send y n))); [auto|]. apply App.
  - cbn [y_send]. node i n; auto. cbn [new_own c_out]. apply App.
  - cbn [y_send]. node i n; auto.
  - cbn [y_send]. node i n; auto.
  - unfold flush. destruct (c_out (y_send y n)) as [|[a b] o]; cbn [y_send]; node i n; auto; exfalso; exact (N n eq_refl eq_refl).
  - destruct (nth_error (y_net y) n); auto.
Qed.
Lemma flushes_cons i e (h : list (ev K)) : flushes i (e :: h) = ((if (match e with Flush n => Z.eqb n i | _ => false end) then 1 else 0) + flushes i h)%nat.
Proof. unfold flushes. cbn [filter]. destruct (match e with Flush n => n =? i | _ => false end); reflexivity. Qed.
Lemma is_sent h y i f g p b : inv y -> (forall e, In e h -> In e H) -> SF f -> RF g -> nth_error (c_out (y_send y i)) p = Some (initial_id f g, b) ->
  find (initial_id f g) (c_tree (y_send y i)) <> None -> ~ In (SenderGets i g true) h -> (p < flushes i h)%nat ->
  In (initial_id f g, half (pk (who g)) (pk i) false, b) (y_net (run x kdec nodes who h y)).
Proof.
  revert y p. induction h as [|e h IH]; intros y p V I F G O X N Fl; [cbn in Fl; lia|].
  cbn [run fold_left]. change (fold_left (fun y0 e0 => step x kdec nodes who e0 y0) h (step x kdec nodes who e y)) with (run x kdec nodes who h (step x kdec nodes who e y)).
  assert (Ie : In e H) by (apply I; left; auto). assert (Ih : forall e', In e' h -> In e' H) by (intros; apply I; right; auto).
  assert (Nh : ~ In (SenderGets i g true) h) by (intros Q; apply N; right; auto). assert (Ne : e <> SenderGets i g true) by (intros ->; apply N; left; auto).
  pose proof (step_inv y e V Ie) as V'. pose proof (kept y e i f g V Ie F G Ne X) as X'. rewrite flushes_cons in Fl.
  assert (Dec : {n | e = Flush n /\ n = i} + {forall n, e = Flush n -> n <> i}).
  { destruct e; try (right; intros; discriminate). destruct (Z.eq_dec i0 i) as [-> | Q]; [left; exists i; auto|right; intros n E; injection E as <-; auto]. }
  destruct Dec as [(n & -> & ->) | Nf].
  - destruct p as [|p].
    + assert (Q : In (initial_id f g, half (pk (who g)) (pk i) false, b) (y_net (step x kdec nodes who (Flush i) y))).
      { cbn [step]. unfold flush. destruct (c_out (y_send y i)) as [|[a b'] o] eqn:Eo; [discriminate|]. cbn in O. injection O as -> ->. cbn [y_net]. apply in_or_app. right.
        destruct (find (initial_id f g) (c_tree (y_send y i))) as [e|] eqn:E; [|contradiction]. apply find_in in E.
        destruct (v_send _ V _ _ _ E) as [(r & w & F' & _) | [(f' & g' & F' & _ & G' & _ & Ei & _) | (f' & g' & F' & Fw & G' & _ & Ei & ->)]].
        - exfalso. exact (ids_i _ _ _ F G (or_introl F') eq_refl).
        - exfalso. exact (ids_pi _ _ _ _ F' G' F G (eq_sym Ei)).
        - destruct (ids_ii _ _ _ _ F G F' G' Ei) as (<- & <-). cbn. auto. }
      apply net_grows. exact Q.
    + apply (IH _ p V' Ih F G); auto; [|cbn iota in Fl; rewrite Z.eqb_refl in Fl; lia].
      cbn [step]. unfold flush. destruct (c_out (y_send y i)) as [|[a b'] o] eqn:Eo; [discriminate|]. cbn [y_send]. rewrite at_same. cbn [c_out]. exact O.
  - apply (IH _ p V' Ih F G); auto; [apply out_stays; auto|].
    assert (Z0 : (match e with Flush n => n =? i | _ => false end) = false). { destruct e; auto. apply Z.eqb_neq. apply (Nf i0). auto. } rewrite Z0 in Fl. cbn in Fl. exact Fl.
Qed.
Lemma recv_kept y e j f : inv y -> In e H -> SF f -> find f (c_tree (y_recv y j)) <> None -> find f (c_tree (y_recv (step x kdec nodes who e y) j)) <> None.
Proof.
  intros V Ie F X. pose proof (Hp e Ie) as P. destruct e as [n g' d|n f' d|n f' r w|n f'|n f'|n g' r w|n g'|n|n m]; cbn [step proper] in *; try exact X.
  - cbn [y_recv]. node j n; auto. destruct P as (Nn & F'). destruct (v_rcur _ V n Nn) as (A & _). cbn [receiver_gets c_tree]. rewrite update_tree_spec by (auto; apply (v_rboth _ V)).
    pose proof (ids_p f' _ f F' A (or_introl F)). pose proof (ids_i f' _ f F' A (or_introl F)).
    destruct d; cbn [fst]; [rewrite !find_del_other by auto; auto|]. destruct (find (initial_id f' (c_cur (y_recv y n))) (c_tree (y_recv y n))); [auto|]. cbn [fst]. rewrite !find_put_other by auto. auto.
  - cbn [y_recv]. node j n; auto. cbn [new_own c_tree]. rewrite find_put_new. destruct (find f (c_tree (y_recv y n))); [discriminate|contradiction].
  - cbn [y_recv]. node j n; auto.
  - destruct (flush (y_send y n)). auto.
  - destruct (nth_error (y_net y) m) as [[[id k] b]|] eqn:En; [|auto]. cbn [y_recv]. node j n; auto. apply nth_error_In in En. unfold deliver.
    destruct (find id (c_tree (y_recv y n))) as [e|] eqn:E; [|auto]. destruct (e_kind e) eqn:Ek; auto. destruct (s_read (e_keys e)) as [k'|]; [|auto]. destruct (kdec k k'); [|auto]. cbn [c_tree].
    destruct (v_net _ V _ _ _ En) as (i & f1 & g & F1 & Fw & G & Gi & Ei & Bo).
    destruct (v_recv _ V _ _ _ E) as [(r & w & _ & _ & _ & ->) | [(f' & g' & _ & _ & _ & _ & ->) | [(f' & g' & F' & G' & Gw & Ei' & ->) | (g' & w & _ & _ & _ & ->)]]]; try discriminate.
    rewrite Ei in Ei'. destruct (ids_ii _ _ _ _ F1 G F' G' Ei') as (<- & <-).
    destruct (imports n g b (c_tree (y_recv y n)) G Gw (v_recv _ V n) (v_rboth _ V n)) as (_ & _ & I3); auto.
    intros f' w Q. destruct (Bo _ _ Q) as (A1 & A2 & A3). split; [exact A1|]. split; [exact G|]. rewrite A2. auto.
Qed.
Lemma recv_kept_run h y j f : inv y -> (forall e, In e h -> In e H) -> SF f -> find f (c_tree (y_recv y j)) <> None -> find f (c_tree (y_recv (run x kdec nodes who h y) j)) <> None.
Proof. revert y. induction h as [|e h IH]; intros y V I F X; auto. cbn. apply IH; auto; [apply step_inv; auto; apply I; left; auto|intros e' Q; apply I; right; auto|apply recv_kept; auto; apply I; left; auto]. Qed.
Lemma the_key y j f i r w : one_key H -> inv y -> SF f -> In (NewSender i f r w) H -> find f (c_tree (y_recv y j)) <> None -> decrypts y j f w.
Proof.
  intros O V F N X. destruct (find f (c_tree (y_recv y j))) as [e|] eqn:E; [|contradiction]. exists e. split; [exact E|].
  destruct (v_recv _ V _ _ _ E) as [(r' & w' & F' & _) | [(f' & g' & F' & G' & _ & Ei & _) | [(f' & g' & F' & G' & _ & Ei & _) | (g' & w' & _ & _ & (_ & _ & r' & N') & ->)]]].
  - exfalso. exact (ids_sr _ _ F F' eq_refl).
  - exfalso. exact (ids_p _ _ _ F' G' (or_introl F) (eq_sym Ei)).
  - exfalso. exact (ids_i _ _ _ F' G' (or_introl F) (eq_sym Ei)).
  - cbn. f_equal. eapply O; eauto.
Qed.
Lemma fold_import_find b t j g f w : RF g -> who g = j -> (forall id e, find id t = Some e -> recv_ok j id e) -> both t -> (forall f w, In (f, w) b -> SF f /\ given f g w) ->
  In (f, w) b -> find f (fold_left import1 b t) <> None.
Proof.
  intros A B T D G I. revert t T D. induction b as [|[f1 w1] b IH]; intros t T D; [contradiction|].
  assert (S1 : SF f1) by (apply (G f1 w1); left; auto).
  assert (I1 : forall id, find id (import1 t (f1, w1)) = if f1 =? id then Some (mkE KShared (mkS false (Some w1) None)) else find id t).
  { intros id. apply (import1_find t (f1, w1) id S1). intros. exists j. apply T; auto. }
  destruct (imports j g [(f1, w1)] t A B T D) as (P1 & P2 & _). { intros f' w' [X|[]]. injection X as <- <-. apply G. left. auto. }
  cbn [fold_left] in P1, P2. destruct I as [X|X].
  - injection X as -> ->. destruct (imports j g b (import1 t (f, w)) A B P1 P2) as (_ & _ & P3); [intros; apply G; right; auto|]. cbn [fold_left]. apply P3. rewrite I1, Z.eqb_refl. discriminate.
  - cbn [fold_left]. apply IH; auto. intros; apply G; right; auto.
Qed.
Lemma lands y j n f g b f' i r w h3 : one_key H -> inv y -> SF f -> RF g -> who f = i -> who g = j -> SF f' -> In (NewSender i f' r w) H -> In (f', w) b ->
  nth_error (y_net y) n = Some (initial_id f g, half (pk (who g)) (pk i) false, b) -> ready y j f g -> (forall e, In e (Deliver j n :: h3) -> In e H) ->
  decrypts (run x kdec nodes who (Deliver j n :: h3) y) j f' w.
Proof.
  intros O V2 F G Fw Gw F' Nf' Ib En Rd I3.
  assert (Id : In (Deliver j n) H) by (apply I3; left; auto). pose proof (step_inv y (Deliver j n) V2 Id) as V3.
  cbn [run fold_left]. change (fold_left (fun y0 e0 => step x kdec nodes who e0 y0) h3 (step x kdec nodes who (Deliver j n) y)) with (run x kdec nodes who h3 (step x kdec nodes who (Deliver j n) y)).
  assert (I3' : forall e, In e h3 -> In e H) by (intros; apply I3; right; auto).
  eapply the_key; [exact O|apply run_inv; auto|exact F'|exact Nf'|]. apply recv_kept_run; auto.
  cbn [step]. rewrite En. cbn [y_recv]. rewrite at_same. unfold deliver, ready in *. change (Z.lxor f g) with (initial_id f g) in Rd.
  destruct (find (initial_id f g) (c_tree (y_recv y j))) as [e|] eqn:E; [|contradiction].
  destruct (v_recv _ V2 _ _ _ E) as [(r' & w' & F1 & _) | [(f1 & g1 & F1 & G1 & _ & Ei & _) | [(f1 & g1 & F1 & G1 & Gw1 & Ei & ->) | (g1 & w' & F1 & _)]]].
  - exfalso. exact (ids_i _ _ _ F G (or_intror F1) eq_refl).
  - exfalso. exact (ids_pi _ _ _ _ F1 G1 F G (eq_sym Ei)).
  - destruct (ids_ii _ _ _ _ F G F1 G1 Ei) as (<- & <-). cbn [e_kind e_keys sess s_read]. rewrite Gw, Fw. destruct (kdec _ _) as [_|C]; [|exfalso; apply C; reflexivity]. cbn [c_tree].
    apply nth_error_In in En. destruct (v_net _ V2 _ _ _ En) as (i1 & f2 & g2 & F2 & Fw2 & G2 & Gi & Ei2 & Bo). destruct (ids_ii _ _ _ _ F G F2 G2 Ei2) as (<- & <-).
    apply (fold_import_find b (c_tree (y_recv y j)) j g f' w G Gw (v_recv _ V2 j) (v_rboth _ V2 j)); auto.
    intros f3 w3 Q3. destruct (Bo _ _ Q3) as (A1 & A2 & A3). split; [exact A1|]. split; [exact G|]. rewrite A2. auto.
  - exfalso. exact (ids_i _ _ _ F G (or_introl F1) eq_refl).
Qed.
Lemma initial_writes y i f g : inv y -> SF f -> RF g -> find (initial_id f g) (c_tree (y_send y i)) <> None -> exists k, encrypts y i (Z.lxor f g) k.
Proof.
  intros V F G X. destruct (find (initial_id f g) (c_tree (y_send y i))) as [e|] eqn:E; [|contradiction]. pose proof (find_in _ _ _ E) as E'.
  destruct (v_send _ V _ _ _ E') as [(r & w & F' & _) | [(f' & g' & F' & _ & G' & _ & Ei & _) | (f' & g' & F' & Fw & G' & _ & Ei & ->)]].
  - exfalso. exact (ids_i _ _ _ F G (or_introl F') eq_refl).
  - exfalso. exact (ids_pi _ _ _ _ F' G' F G (eq_sym Ei)).
  - eexists. eexists. split; [exact E|]. reflexivity.
Qed.
Lemma own_write y i f w : inv y -> SF f -> encrypts y i f w -> exists r, In (NewSender i f r w) H /\ exists e, find f (c_tree (y_send y i)) = Some e /\ key_body f (e_keys e) = [(f, w)].
Proof.
  intros V F (e & E & W). pose proof (find_in _ _ _ E) as E'.
  destruct (v_send _ V _ _ _ E') as [(r & w' & F' & _ & N & ->) | [(f' & g' & F' & _ & G' & _ & Ei & _) | (f' & g' & F' & Fw & G' & _ & Ei & ->)]].
  - cbn in W. injection W as ->. exists r. split; [exact N|]. eexists. split; [exact E|]. reflexivity.
  - exfalso. exact (ids_p _ _ _ F' G' (or_introl F) (eq_sym Ei)).
  - exfalso. exact (ids_i _ _ _ F' G' (or_introl F) (eq_sym Ei)).
Qed.

(** ** nobody else has the keys *)
Lemma private_keys y n i j d : fresh_keys half H -> (forall a b, pk a = pk b -> a = b) -> inv y -> has_key y n (half (pk i) (pk j) d) -> n = i \/ n = j.
Proof.
  intros Fk Inj V (id & e & [E|E] & Kk).
  - apply find_in in E. destruct (v_send _ V _ _ _ E) as [(r & w & F & Fw & N & ->) | [(f & g & F & Fw & G & _ & Ei & ->) | (f & g & F & Fw & G & _ & Ei & ->)]]; cbn in Kk.
    + exfalso. destruct Kk as [Q|Q]; injection Q as Q; refine (fk_half _ _ Fk _ _ _ _ _ Q); [exists n, id, w|exists n, id, r]; auto.
    + destruct Kk as [Q|Q]; injection Q as Q; apply (xl_sep _ _ _ L) in Q; left; apply Inj; tauto.
    + destruct Kk as [Q|Q]; injection Q as Q; apply (xl_sep _ _ _ L) in Q; right; apply Inj; tauto.
  - destruct (v_recv _ V _ _ _ E) as [(r' & w' & F1 & _ & N & ->) | [(f1 & g1 & F1 & G1 & _ & Ei & ->) | [(f1 & g1 & F1 & G1 & Gw1 & Ei & ->) | (g1 & w' & F1 & _ & (_ & _ & r' & N) & ->)]]]; cbn in Kk.
    + exfalso. destruct Kk as [Q|Q]; injection Q as Q; refine (fk_half _ _ Fk _ _ _ _ _ Q); [exists n, id, w'|exists n, id, r']; auto.
    + destruct Kk as [Q|Q]; injection Q as Q; apply (xl_sep _ _ _ L) in Q; right; apply Inj; tauto.
    + destruct Kk as [Q|Q]; injection Q as Q; apply (xl_sep _ _ _ L) in Q; left; apply Inj; tauto.
    + exfalso. destruct Kk as [Q|Q]; [|discriminate]. injection Q as Q. refine (fk_half _ _ Fk _ _ _ _ _ Q). exists (who id), id, r'. auto.
Qed.
(** who has the key of an intent of a sender: the sender, and who got it under the id of the intent *)
Lemma shared_keys y n i f r w : fresh_keys half H -> inv y -> In (NewSender i f r w) H -> has_key y n w ->
  n = i \/ (find f (c_tree (y_recv y n)) <> None /\ exists g, who g = n /\ In (SenderGets i g false) H).
Proof.
  intros Fk V N0 (id & e & [E|E] & Kk).
  - apply find_in in E. left. destruct (v_send _ V _ _ _ E) as [(r' & w' & F & Fw & N & ->) | [(f' & g & F & Fw & G & _ & Ei & ->) | (f' & g & F & Fw & G & _ & Ei & ->)]]; cbn in Kk.
    + destruct (fk_own _ _ Fk _ _ _ _ _ _ _ _ N0 N) as (D1 & D2). destruct Kk as [Q|Q]; injection Q as Q; [exfalso; apply D1; auto|]. rewrite (D2 (eq_sym Q)) in N0. destruct (Hp _ N0) as (_ & _ & X). congruence.
    + exfalso. destruct Kk as [Q|Q]; injection Q as Q; symmetry in Q; refine (fk_half _ _ Fk _ _ _ _ _ Q); exists i, f, r; auto.
    + exfalso. destruct Kk as [Q|Q]; injection Q as Q; symmetry in Q; refine (fk_half _ _ Fk _ _ _ _ _ Q); exists i, f, r; auto.
  - destruct (v_recv _ V _ _ _ E) as [(r' & w' & F1 & _ & N & ->) | [(f1 & g1 & F1 & G1 & _ & Ei & ->) | [(f1 & g1 & F1 & G1 & Gw1 & Ei & ->) | (g1 & w' & F1 & Gw & (_ & Gi & r' & N) & ->)]]]; cbn in Kk.
    + exfalso. destruct (fk_recv _ _ Fk _ _ _ _ _ _ _ _ N0 N) as (D1 & D2). destruct Kk as [Q|Q]; injection Q as Q; auto.
    + exfalso. destruct Kk as [Q|Q]; injection Q as Q; symmetry in Q; refine (fk_half _ _ Fk _ _ _ _ _ Q); exists i, f, r; auto.
    + exfalso. destruct Kk as [Q|Q]; injection Q as Q; symmetry in Q; refine (fk_half _ _ Fk _ _ _ _ _ Q); exists i, f, r; auto.
    + right. destruct Kk as [Q|Q]; [|discriminate]. injection Q as ->. destruct (fk_own _ _ Fk _ _ _ _ _ _ _ _ N0 N) as (_ & D2). specialize (D2 eq_refl). subst id.
      split; [congruence|]. exists g1. split; [exact Gw|]. destruct (Hp _ N0) as (_ & _ & X). congruence.
Qed.
End Agree.

(** ** a receiver that was removed *)
Section Revoke.
Context {K : Type} (x : exchange K) (pub : Z -> Z) (half : Z -> Z -> bool -> K) (L : exchange_law x pub half).
Context (kdec : forall a b : K, {a = b} + {a <> b}) (nodes : Z -> Z * Z) (who : Z -> Z) (ND SF RF : Z -> Prop).
Context (Hn : forall n, snd (nodes n) = pub (fst (nodes n))) (Hd : distinct_ids SF RF).
Context (h1 h2 : list (ev K)) (i j g f0 : Z).
Notation H := (h1 ++ SenderGets i g true :: h2).
Context (Hp : forall e, In e H -> proper ND SF RF who e) (Ni : ND i) (Gw : who g = j) (F0 : SF f0) (F0w : who f0 = i).
Context (Na : forall f, ~ In (AnnounceSender i f) H) (Ng : forall g', In (SenderGets i g' false) H -> who g' = j -> g' = g) (Nn : ~ In (SenderGets i g false) h2).
Notation pk n := (snd (nodes n)).
Notation Inv h := (inv half nodes who ND SF RF h).
Ltac node j i := destruct (Z.eq_dec j i) as [-> | ?]; [rewrite ?at_same|rewrite ?at_other by assumption].

Lemma cur_same y e : In e H -> c_cur (y_send (step x kdec nodes who e y) i) = c_cur (y_send y i).
Proof.
  intros I. destruct e as [n g' d|n f' d|n f' r w|n f'|n f'|n g' r w|n g'|n|n m]; cbn [step y_send]; auto.
  - node i n; auto. unfold sender_gets. destruct (g' =? _); auto. destruct (update_tree _ _ _ _ _ _ _ _). auto.
  - node i n; auto.
  - node i n; auto.
  - destruct (Z.eq_dec i n) as [<- | ?]; [exfalso; exact (Na _ I)|rewrite at_other; auto].
  - unfold flush. destruct (c_out (y_send y n)) as [|[a b] o]; cbn [y_send]; node i n; auto.
  - destruct (nth_error (y_net y) m); auto.
Qed.
(** before: sessions of the sender belong to its one intent *)
Definition own_only (y : sys K) : Prop := c_cur (y_send y i) = f0 /\ forall f' g' e, SF f' -> RF g' -> In (initial_id f' g', e) (c_tree (y_send y i)) -> f' = f0.
Lemma own_only_step y e : Inv H y -> In e H -> own_only y -> own_only (step x kdec nodes who e y).
Proof.
  intros V I (C & O). split; [rewrite cur_same; auto|]. intros f' g' en F' G' X. pose proof (Hp e I) as P. specialize (O f' g').
  destruct e as [n g1 d|n f1 d|n f1 r w|n f1|n f1|n g1 r w|n g1|n|n m]; cbn [step y_send] in X; eauto.
  - destruct (Z.eq_dec i n) as [<- | ?]; [rewrite at_same in X|rewrite at_other in X; eauto]. destruct P as (_ & G1).
    rewrite (sender_gets_eq x pub half L nodes who ND SF RF H Hn Hd) in X by auto. destruct d; cbn [c_tree] in X.
    + apply in_del in X. destruct X as (_ & X). apply in_del in X. destruct X as (_ & X). eauto.
    + destruct (find (initial_id (c_cur (y_send y i)) g1) (c_tree (y_send y i))); [eauto|]. cbn [c_tree] in X. rewrite C in X. apply in_put in X. destruct X as [(X & _)|X]; [apply (ids_ii SF RF Hd) in X; auto; tauto|].
      apply in_put in X. destruct X as [(X & _)|X]; [exfalso; symmetry in X; exact (ids_pi SF RF Hd _ _ _ _ F0 G1 F' G' X)|]. eauto.
  - destruct (Z.eq_dec i n) as [<- | ?]; [rewrite at_same in X|rewrite at_other in X; eauto]. destruct P as (_ & F1 & _). cbn [new_own c_tree] in X. apply in_put_new in X. destruct X as [(X & _)|X]; [|eauto].
    exfalso. exact (ids_i SF RF Hd _ _ _ F' G' (or_introl F1) X).
  - destruct (Z.eq_dec i n) as [<- | ?]; [rewrite at_same in X|rewrite at_other in X; eauto]. cbn [end_own c_tree] in X. apply in_del in X. destruct X. eauto.
  - destruct (Z.eq_dec i n) as [<- | ?]; [rewrite at_same in X|rewrite at_other in X; eauto]. cbn [announce c_tree] in X. eauto.
  - unfold flush in X. destruct (c_out (y_send y n)) as [|[a b] o]; cbn [y_send] in X; (destruct (Z.eq_dec i n) as [<- | ?]; [rewrite at_same in X|rewrite at_other in X]; eauto).
  - destruct (nth_error (y_net y) m); eauto.
Qed.
Lemma own_only_run h y : Inv H y -> (forall e, In e h -> In e H) -> own_only y -> own_only (run x kdec nodes who h y).
Proof.
  revert y. induction h as [|e h IH]; intros y V I O; auto. cbn. apply IH; [|intros; apply I; right; auto|]; [apply (step_inv x pub half L kdec nodes who ND SF RF H Hn Hd Hp); auto; apply I; left; auto|].
  apply own_only_step; auto. apply I. left. auto.
Qed.
(** after *)
Definition old (f : Z) : Prop := exists r w, In (NewSender i f r w) h1.
Definition old_body (id : Z) (b : list (Z * K)) : Prop := forall f', SF f' -> who f' = i -> id = initial_id f' g -> forall f w, In (f, w) b -> who f = i -> old f.
Record gone (y : sys K) : Prop := {
  q_tree : forall f' e, SF f' -> who f' = i -> ~ In (initial_id f' g, e) (c_tree (y_send y i));
  q_out : forall id b, In (id, b) (c_out (y_send y i)) -> old_body id b;
  q_net : forall id k b, In (id, k, b) (y_net y) -> old_body id b;
  q_recv : forall f, SF f -> who f = i -> find f (c_tree (y_recv y j)) <> None -> old f }.
Lemma gone_send y n c : gone y -> (n = i -> (forall f' e, SF f' -> who f' = i -> ~ In (initial_id f' g, e) (c_tree c)) /\ (forall id b, In (id, b) (c_out c) -> old_body id b)) ->
  gone (mkY (at_node (y_send y) n c) (y_recv y) (y_net y)).
Proof. intros [A B C D] E. constructor; cbn [y_send y_recv y_net]; auto; intros; (destruct (Z.eq_dec i n) as [<- | N]; [rewrite at_same in *|rewrite at_other in * by auto]); eauto; [apply E; auto|eapply E; eauto]. Qed.
Lemma gone_step y e : Inv H y -> RF g -> In e h2 -> own_only y -> gone y -> gone (step x kdec nodes who e y).
Proof.
  intros V G I2 (C & _) Q. assert (I : In e H) by (apply in_or_app; right; right; auto). pose proof (Hp e I) as P.
  destruct e as [n g1 d|n f1 d|n f1 r w|n f1|n f1|n g1 r w|n g1|n|n m]; cbn [step].
  - apply gone_send; auto. intros ->. destruct P as (_ & G1). rewrite (sender_gets_eq x pub half L nodes who ND SF RF H Hn Hd) by auto. destruct d; cbn [c_tree c_out].
    { split; [|apply (q_out _ Q)]. intros f' e F' Fw. rewrite !in_del. intros (_ & _ & X). exact (q_tree _ Q _ _ F' Fw X). }
    assert (Ng1 : g1 <> g) by (intros ->; exact (Nn I2)).
    destruct (find (initial_id (c_cur (y_send y i)) g1) (c_tree (y_send y i))); [split; [apply (q_tree _ Q)|apply (q_out _ Q)]|]. cbn [c_tree c_out]. rewrite C. split.
    + intros f' e F' Fw X. apply in_put in X. destruct X as [(X & _)|X]; [apply (ids_ii SF RF Hd) in X; auto; destruct X; congruence|].
      apply in_put in X. destruct X as [(X & _)|X]; [|exact (q_tree _ Q _ _ F' Fw X)]. symmetry in X. exact (ids_pi SF RF Hd _ _ _ _ F0 G1 F' G X).
    + intros id b X. apply in_app_iff in X. destruct X as [X|X]; [apply (q_out _ Q); auto|]. destruct (find f0 (c_tree (y_send y i))); [|contradiction]. destruct X as [X|[]]. injection X as <- _.
      intros f' F' Fw E. apply (ids_ii SF RF Hd) in E; auto. destruct E. congruence.
  - destruct Q as [A B D E]. constructor; cbn [y_send y_recv y_net]; auto. intros f F Fw X. apply E; auto. intros Z0. apply X.
    destruct (Z.eq_dec j n) as [<- | N]; [rewrite at_same|rewrite at_other; auto]. destruct P as (Nj & F1). destruct (v_rcur _ _ _ _ _ _ _ _ V j Nj) as (Gc & Gcw). clear X. cbn [receiver_gets c_tree].
    match goal with |- ?a = None => destruct a as [e|] eqn:Ef end; auto. exfalso. apply (update_tree_find x pub half L nodes SF RF Hn) in Ef; auto; [|apply (v_rboth _ _ _ _ _ _ _ _ V)].
    destruct Ef as [Ef|(_ & [(Ef & _) | (Ef & _)])]; [congruence|exact (ids_p SF RF Hd _ _ _ F1 Gc (or_introl F) (eq_sym Ef))|exact (ids_i SF RF Hd _ _ _ F1 Gc (or_introl F) (eq_sym Ef))].
  - apply gone_send; auto. intros ->. destruct P as (_ & F1 & _). cbn [new_own c_tree c_out].
    assert (T : forall f' e, SF f' -> who f' = i -> ~ In (initial_id f' g, e) (put_new f1 (mkE KShared (mkS true (Some r) (Some w))) (c_tree (y_send y i)))).
    { intros f' e F' Fw X. apply in_put_new in X. destruct X as [(X & _)|X]; [exact (ids_i SF RF Hd _ _ _ F' G (or_introl F1) X)|exact (q_tree _ Q _ _ F' Fw X)]. }
    split; [exact T|]. intros id b X. apply in_app_iff in X. destruct X as [X|X]; [apply (q_out _ Q); auto|]. apply in_map_iff in X. destruct X as ([id' e] & X & Y). apply filter_In in Y. cbn [fst] in X. injection X as <- <-.
    intros f' F' Fw -> . exfalso. exact (T _ _ F' Fw (proj1 Y)).
  - apply gone_send; auto. intros ->. cbn [end_own c_tree c_out]. split; [|apply (q_out _ Q)]. intros f' e F' Fw X. apply in_del in X. exact (q_tree _ Q _ _ F' Fw (proj2 X)).
  - apply gone_send; auto. intros ->. cbn [announce c_tree c_out]. split; [apply (q_tree _ Q)|apply (q_out _ Q)].
  - destruct Q as [A B D E]. constructor; cbn [y_send y_recv y_net]; auto. intros f F Fw X. apply E; auto. intros Z0. apply X.
    destruct (Z.eq_dec j n) as [<- | N]; [rewrite at_same|rewrite at_other; auto]. destruct P as (Nj & G1 & _). cbn [new_own c_tree]. rewrite find_put_new, Z0. destruct (Z.eqb_spec g1 f) as [-> |]; auto. exfalso. exact (ids_sr SF RF Hd _ _ F G1 eq_refl).
  - destruct Q as [A B D E]. constructor; cbn [y_send y_recv y_net]; auto. intros f F Fw X. apply E; auto. intros Z0. apply X.
    destruct (Z.eq_dec j n) as [<- | N]; [rewrite at_same|rewrite at_other; auto]. exact Z0.
  - unfold flush. destruct (c_out (y_send y n)) as [|[id b] o] eqn:Eo.
    + cbn [app]. rewrite app_nil_r. apply gone_send; auto. intros ->. split; [apply (q_tree _ Q)|apply (q_out _ Q)].
    + assert (Q1 : gone (mkY (at_node (y_send y) n (mkC (c_cur (y_send y n)) (c_tree (y_send y n)) o)) (y_recv y) (y_net y))).
      { apply gone_send; auto. intros ->. cbn [c_tree c_out]. split; [apply (q_tree _ Q)|]. intros id' b' X. apply (q_out _ Q). rewrite Eo. right. auto. }
      destruct Q1 as [A B D E]. constructor; auto. cbn [y_net] in *. intros id' k' b' X. apply in_app_iff in X. destruct X as [X|X]; [eapply D; eauto|].
      assert (Xb : In (id', b') (c_out (y_send y n))). { rewrite Eo. left. destruct (find id (c_tree (y_send y n))) as [e|]; [|contradiction]. destruct (s_write (e_keys e)); [|contradiction]. destruct X as [X|[]]. congruence. }
      destruct (Z.eq_dec n i) as [-> | N]; [apply (q_out _ Q); auto|]. destruct (v_out _ _ _ _ _ _ _ _ V _ _ _ Xb) as (f & g' & F & Fw & G' & _ & Ei & Bo).
      intros f' F' Fw' Ei'. rewrite Ei in Ei'. apply (ids_ii SF RF Hd) in Ei'; auto. destruct Ei' as (-> & _). congruence.
  - destruct (nth_error (y_net y) m) as [[[id k] b]|] eqn:En; [|auto]. destruct Q as [A B D E]. constructor; cbn [y_send y_recv y_net]; auto. intros f F Fw.
    destruct (Z.eq_dec j n) as [<- | N]; [rewrite at_same|rewrite at_other; auto]. apply nth_error_In in En. unfold deliver.
    destruct (find id (c_tree (y_recv y j))) as [e|] eqn:Ee; [|auto]. destruct (e_kind e) eqn:Ek; auto. destruct (s_read (e_keys e)) as [k'|]; [|auto]. destruct (kdec k k'); [|auto]. cbn [c_tree].
    destruct (v_net _ _ _ _ _ _ _ _ V _ _ _ En) as (i1 & f1 & g1 & F1 & Fw1 & G1 & Gi & Ei & Bo).
    destruct (v_recv _ _ _ _ _ _ _ _ V _ _ _ Ee) as [(r & w & _ & _ & _ & ->) | [(f' & g' & _ & _ & _ & _ & ->) | [(f' & g' & F' & G' & Gw' & Ei' & ->) | (g' & w & _ & _ & _ & ->)]]]; try discriminate.
    rewrite Ei in Ei'. destruct (ids_ii SF RF Hd _ _ _ _ F1 G1 F' G' Ei') as (<- & <-).
    intros X. destruct (find f (c_tree (y_recv y j))) eqn:Ef; [apply E; auto; congruence|].
    assert (Ib : exists w, In (f, w) b).
    { clear - X Ef Bo Ee V Hd. assert (T : forall t, find f t = None -> find f (fold_left import1 b t) <> None -> exists w, In (f, w) b); [|eauto].
      clear. induction b as [|[a v] b IH]; intros t N X; [contradiction|]. cbn [fold_left] in X. destruct (Z.eq_dec a f) as [-> | Na]; [exists v; left; auto|].
      destruct (IH (import1 t (a, v))) as (w & W); auto; [|exists w; right; auto]. unfold import1. cbn [fst snd]. destruct (find a t); [rewrite find_put_other; auto|]. rewrite find_put_new, N. destruct (Z.eqb_spec a f); [contradiction|auto]. }
    destruct Ib as (w & Ib). destruct (Bo _ _ Ib) as (_ & Bw & _). rewrite Fw in Bw. assert (g1 = g) by (apply Ng; [rewrite <- Bw in Gi; exact Gi|exact Gw']). subst g1. assert (Fw1' : who f1 = i) by congruence.
    exact (D _ _ _ En f1 F1 Fw1' Ei f w Ib Fw).
Qed.
Lemma gone_run h y : Inv H y -> RF g -> (forall e, In e h -> In e h2) -> own_only y -> gone y -> gone (run x kdec nodes who h y).
Proof.
  revert y. induction h as [|e h IH]; intros y V G I O Q; auto. cbn. assert (Ie : In e H) by (apply in_or_app; right; right; apply I; left; auto).
  apply IH; auto; [apply (step_inv x pub half L kdec nodes who ND SF RF H Hn Hd Hp); auto|intros; apply I; right; auto|apply own_only_step; auto|apply gone_step; auto; apply I; left; auto].
Qed.
Lemma inv_more (h h' : list (ev K)) y : (forall e, In e h -> In e h') -> Inv h y -> Inv h' y.
Proof.
  intros I [A B C D E F G J].
  assert (Bk : forall i id b, body_ok who SF RF h i id b -> body_ok who SF RF h' i id b).
  { intros n id b (f & g' & X1 & X2 & X3 & X4 & X5 & X6). exists f, g'. split; [exact X1|]. split; [exact X2|]. split; [exact X3|]. split; [auto|]. split; [exact X5|]. intros f' w X. destruct (X6 _ _ X) as (Y1 & Y2 & r & Y3). split; [exact Y1|]. split; [exact Y2|]. exists r. auto. }
  constructor; auto.
  - intros n id e X. destruct (C _ _ _ X) as [(r & w & X1 & X2 & X3 & X4) | [(f & g' & X1 & X2 & X3 & X4 & X5) | (f & g' & X1 & X2 & X3 & X4 & X5)]]; [left; exists r, w; auto|right; left|right; right]; exists f, g'; auto 7.
  - intros n id e X. destruct (D _ _ _ X) as [(r & w & X1 & X2 & X3 & X4) | [(f & g' & X1 & X2 & X3 & X4) | [(f & g' & X1 & X2 & X3 & X4) | (g' & w & X1 & X2 & (X3 & X4 & r & X5) & X6)]]];
      [left; exists r, w; auto|right; left; exists f, g'; auto|right; right; left; exists f, g'; auto|right; right; right]. exists g', w. split; [exact X1|]. split; [exact X2|]. split; [split; [exact X3|split; [auto|exists r; auto]]|exact X6].
  - intros id k b X. destruct (J _ _ _ X) as (n & Y). exists n. auto.
Qed.
Lemma revoked cs cr f : RF g -> SF f -> who f = i -> (forall n, ND n -> (SF (cs n) /\ who (cs n) = n) /\ (RF (cr n) /\ who (cr n) = n)) -> cs i = f0 -> ~ old f ->
  find f (c_tree (y_recv (run x kdec nodes who H (start cs cr)) j)) = None.
Proof.
  intros G F Fw St C0 No. set (h0 := h1 ++ [SenderGets i g true]). assert (E : run x kdec nodes who H (start cs cr) = run x kdec nodes who h2 (run x kdec nodes who h0 (start cs cr))).
  { unfold run, h0. rewrite <- fold_left_app, <- app_assoc. reflexivity. }
  assert (P1 : forall e, In e h1 -> proper ND SF RF who e) by (intros; apply Hp, in_or_app; auto).
  assert (P0 : forall e, In e h0 -> In e H) by (intros e X; apply in_app_iff in X; apply in_or_app; destruct X as [X|[X|[]]]; [left|right; left]; auto).
  pose proof (run_inv x pub half L kdec nodes who ND SF RF h1 Hn Hd P1 h1 _ (start_inv half nodes who ND SF RF h1 cs cr St) (fun e X => X)) as V1.
  set (y1 := run x kdec nodes who h1 (start cs cr)) in *.
  pose proof (inv_more h1 H y1 ltac:(intros; apply in_or_app; auto) V1) as V1'.
  assert (O1 : own_only y1). { unfold y1. apply own_only_run; [|intros; apply in_or_app; auto|split; [exact C0|cbn; contradiction]]. apply (start_inv half nodes who ND SF RF H cs cr St). }
  assert (E0 : run x kdec nodes who h0 (start cs cr) = step x kdec nodes who (SenderGets i g true) y1). { unfold run, h0, y1. rewrite fold_left_app. reflexivity. }
  assert (Ir : In (SenderGets i g true) H) by (apply in_or_app; right; left; auto).
  pose proof (step_inv x pub half L kdec nodes who ND SF RF H Hn Hd Hp y1 _ V1' Ir) as V2. pose proof (own_only_step _ _ V1' Ir O1) as O2.
  assert (Bo1 : forall n id b, body_ok who SF RF h1 n id b -> old_body id b).
  { intros n id b (f1 & g1 & _ & _ & _ & _ & _ & X) f' F' Fw' _ f2 w Ib Fw2. destruct (X _ _ Ib) as (_ & Y & r & Z0). exists r, w. congruence. }
  assert (Q : gone (step x kdec nodes who (SenderGets i g true) y1)).
  { cbn [step]. constructor; cbn [y_send y_recv y_net].
    - rewrite at_same, (sender_gets_eq x pub half L nodes who ND SF RF H Hn Hd) by auto. cbn [c_tree]. intros f' e F' Fw' X. destruct O1 as (C1 & O1). rewrite C1 in X. apply in_del in X. destruct X as (N1 & X). apply in_del in X. destruct X as (_ & X).
      apply N1. rewrite (O1 f' g e F' G X). reflexivity.
    - rewrite at_same, (sender_gets_eq x pub half L nodes who ND SF RF H Hn Hd) by auto. cbn [c_out]. intros id b X. apply (Bo1 i). apply (v_out _ _ _ _ _ _ _ _ V1). auto.
    - intros id k b X. destruct (v_net _ _ _ _ _ _ _ _ V1 _ _ _ X) as (n & Y). apply (Bo1 n); auto.
    - intros f2 F2 Fw2 X. destruct (find f2 (c_tree (y_recv y1 j))) as [e|] eqn:Ee; [|contradiction].
      destruct (v_recv _ _ _ _ _ _ _ _ V1 _ _ _ Ee) as [(r & w & X1 & _) | [(f' & g' & X1 & X2 & _ & X4 & _) | [(f' & g' & X1 & X2 & _ & X4 & _) | (g' & w & X1 & X2 & (X3 & X4 & r & X5) & X6)]]].
      + exfalso. exact (ids_sr SF RF Hd _ _ F2 X1 eq_refl).
      + exfalso. exact (ids_p SF RF Hd _ _ _ X1 X2 (or_introl F2) (eq_sym X4)).
      + exfalso. exact (ids_i SF RF Hd _ _ _ X1 X2 (or_introl F2) (eq_sym X4)).
      + exists r, w. congruence. }
  pose proof (gone_run h2 _ V2 G (fun e X => X) O2 Q) as Qe. rewrite E, E0. destruct (find f _) eqn:Ef; auto. exfalso. apply No. apply (q_recv _ Qe); auto. congruence.
Qed.
End Revoke.
