From Verif Require Import Base Dhkey_Model Eventqueue_Model Eventqueue_Spec.

Lemma added_app c a b : added c (a ++ b) = added c a ++ added c b. Proof. apply flat_map_app. Qed.
Lemma ran_app c a b : ran c (a ++ b) = ran c a ++ ran c b. Proof. apply flat_map_app. Qed.
Lemma released_app c a b : released c (a ++ b) = released c a ++ released c b. Proof. apply flat_map_app. Qed.
Lemma objects_app a b : objects (a ++ b) = objects a ++ objects b. Proof. apply flat_map_app. Qed.
Lemma held_app o a b : held o (a ++ b) = held o a + held o b.
Proof. induction a as [|x a IH]; [reflexivity|]. destruct x; cbn [held app]; rewrite IH; lia. Qed.
Definition cnt (o : Z) (l : list Z) : Z := Z.of_nat (count_occ Z.eq_dec l o).
Lemma cnt_app o a b : cnt o (a ++ b) = cnt o a + cnt o b.
Proof. unfold cnt. rewrite count_occ_app. lia. Qed.
Lemma cnt_nonneg o l : 0 <= cnt o l. Proof. unfold cnt. lia. Qed.
Lemma cnt_in o l : In o l -> 0 < cnt o l. Proof. intros H. apply (count_occ_In Z.eq_dec) in H. unfold cnt. lia. Qed.
Lemma cnt_one o x : cnt o [x] = if x =? o then 1 else 0.
Proof. unfold cnt. cbn [count_occ]. destruct (Z.eq_dec x o), (Z.eqb_spec x o); try lia; congruence. Qed.

Lemma firstn_next {A} (l : list A) n x : nth_error l n = Some x -> firstn (S n) l = firstn n l ++ [x].
Proof. revert n. induction l as [|y l IH]; intros [|n] H; try discriminate; cbn in *; [congruence|]. f_equal. apply IH. exact H. Qed.
Lemma skipn_next {A} (l : list A) n x : nth_error l n = Some x -> skipn n l = x :: skipn (S n) l.
Proof. revert n. induction l as [|y l IH]; intros [|n] H; try discriminate; cbn in *; [congruence|]. apply IH. exact H. Qed.
Lemma nth_ok {A} (l : list A) n : (n < length l)%nat -> exists x, nth_error l n = Some x.
Proof. intros H. destruct (nth_error l n) eqn:E; [eauto|]. apply nth_error_None in E. lia. Qed.

Section Inv.
  Variable W : Type.
  Variable has_key : W -> key -> bool.
  Variable handle : W -> key -> event -> prog W.
  Notation step := (step has_key handle). Notation steps := (steps has_key handle).

  Definition waiting (c : chain W) : Prop := match here c with Waiting _ => True | _ => False end.
  Definition pending (c : chain W) : list Z :=
    objects (match here c with Cleanup j => skipn (Z.to_nat j) (events c) | _ => events c end).
  Record fine (t : list act) (c : chain W) : Prop := {
    f_added : added (name c) t = events c;
    f_size : (length (events c) <= 255)%nat;
    f_idx : 0 <= idx c <= Z.of_nat (length (events c));
    f_here : match here c with
      | Next => ran (name c) t = firstn (Z.to_nat (idx c)) (events c) /\ released (name c) t = []
      | Running _ | Waiting _ => idx c < Z.of_nat (length (events c)) /\ ran (name c) t = firstn (S (Z.to_nat (idx c))) (events c) /\ released (name c) t = []
      | Cleanup j => 0 <= j <= Z.of_nat (length (events c)) /\ ran (name c) t = events c /\ released (name c) t = objects (firstn (Z.to_nat j) (events c))
      end }.
  Definition finished (t : list act) (c : nat) : Prop := ran c t = added c t /\ released c t = objects (added c t).
  Definition kept (t : list act) : Prop :=
    forall t1 c k e f t2 o, t = t1 ++ Ran c k e f :: t2 -> data e = Some o -> 0 < held o t1.
  Record Inv (m : machine W) : Prop := {
    i_fine : Forall (fine (trace m)) (stack m);
    i_fresh : forall c, (next m <= c)%nat -> added c (trace m) = [] /\ ran c (trace m) = [] /\ released c (trace m) = [];
    i_done : forall c, (c < next m)%nat -> ~ In c (map name (stack m)) -> finished (trace m) c;
    i_names : NoDup (map name (stack m));
    i_small : Forall (fun c => name c < next m)%nat (stack m);
    i_shape : match stack m with [] => True | c :: below => ~ waiting c /\ Forall waiting below end;
    i_held : forall o, held o (trace m) = fold_right (fun c s => cnt o (pending c) + s) 0 (stack m);
    i_kept : kept (trace m);
    i_bound : forall c, (length (added c (trace m)) <= 255)%nat }.

  Lemma size_ok c : (length (events c) <= 255)%nat -> @size W c = Z.of_nat (length (events c)).
  Proof. intros H. unfold size, u8. apply Z.mod_small. lia. Qed.

  (** other chains do not notice *)
  Definition mine (c : nat) (a : act) : bool := match a with Added c' _ _ | Ran c' _ _ _ | Released c' _ => Nat.eqb c' c end.
  Lemma others c a t : mine c a = false -> added c (t ++ [a]) = added c t /\ ran c (t ++ [a]) = ran c t /\ released c (t ++ [a]) = released c t.
  Proof.
    intros H. rewrite added_app, ran_app, released_app. destruct a; cbn in H |- *; rewrite H; rewrite ?app_nil_r; auto.
  Qed.
  Lemma fine_other t a (c : chain W) : mine (name c) a = false -> fine t c -> fine (t ++ [a]) c.
  Proof. intros H [F1 F2 F3 F4]. destruct (others (name c) a t H) as (A & B & C). constructor; rewrite ?A, ?B, ?C; auto. Qed.
  Lemma fine_others t a c (below : list (chain W)) : mine c a = true -> ~ In c (map name below) -> Forall (fine t) below -> Forall (fine (t ++ [a])) below.
  Proof.
    intros M N F. rewrite Forall_forall in *. intros x Hx. apply fine_other; [|auto].
    destruct (mine (name x) a) eqn:E; [|reflexivity]. exfalso. apply N. apply in_map_iff. exists x. split; [|exact Hx].
    destruct a; cbn in M, E; apply Nat.eqb_eq in M; apply Nat.eqb_eq in E; congruence.
  Qed.
  Lemma kept_app t a : kept t -> (forall c k e f o, a = Ran c k e f -> data e = Some o -> 0 < held o t) -> kept (t ++ [a]).
  Proof.
    intros K H t1 c k e f t2 o E D. destruct t2 as [|y t2] using rev_ind.
    - change (t1 ++ [Ran c k e f]) with (t1 ++ [Ran c k e f]) in E. apply app_inj_tail in E as [-> E]. eapply H; eauto.
    - clear IHt2. replace (t1 ++ Ran c k e f :: t2 ++ [y]) with ((t1 ++ Ran c k e f :: t2) ++ [y]) in E by (rewrite <- app_assoc; reflexivity).
      apply app_inj_tail in E as [E _]. eapply K; eauto.
  Qed.

  Lemma add_event_some (c c' : chain W) k e : add_event c k e = Some c' -> (length (events c) <= 255)%nat ->
    c' = mkChain (name c) (events c ++ [(k, e)]) (idx c) (here c) /\ (length (events c) < 255)%nat.
  Proof.
    intros H L. unfold add_event in H. rewrite size_ok in H by exact L. destruct (Z.of_nat (length (events c)) <? 255) eqn:E; [|discriminate].
    split; [injection H as <-; reflexivity|]. apply Z.ltb_lt in E. lia.
  Qed.

  Lemma start_inv m k e m' : Forall (fine (trace m)) (stack m) ->
    (forall c, (next m <= c)%nat -> added c (trace m) = [] /\ ran c (trace m) = [] /\ released c (trace m) = []) ->
    (forall c, (c < next m)%nat -> ~ In c (map name (stack m)) -> finished (trace m) c) ->
    NoDup (map name (stack m)) -> Forall (fun c => name c < next m)%nat (stack m) -> Forall waiting (stack m) ->
    (forall o, held o (trace m) = fold_right (fun c s => cnt o (pending c) + s) 0 (stack m)) -> kept (trace m) ->
    (forall c, (length (added c (trace m)) <= 255)%nat) -> start m k e = Some m' -> Inv m'.
  Proof.
    intros F Fr D N S Wt Hd K Bd E. unfold start in E.
    destruct (add_event (mkChain (next m) [] 0 Next) k e) as [c|] eqn:A; [|discriminate].
    apply add_event_some in A; [|cbn; lia]. destruct A as [-> _]. cbn [name events idx here app] in E.
    assert (m' = mkMachine (world m) (mkChain (next m) [(k, e)] 0 Next :: stack m) (Datatypes.S (next m)) (trace m ++ [Added (next m) k e])) by (injection E; auto).
    subst m'. clear E. destruct (Fr (next m) (le_n _)) as (Fa & Fb & Fc).
    assert (Nn : ~ In (next m) (map name (stack m))).
    { intros H. apply in_map_iff in H as (x & E & Hx). rewrite Forall_forall in S. specialize (S x Hx). lia. }
    assert (Me : mine (next m) (Added (next m) k e) = true) by (cbn; apply Nat.eqb_refl).
    constructor; cbn [stack trace next world].
    - constructor; [|apply (fine_others _ _ (next m)); assumption]. constructor; cbn [name events idx here length].
      + rewrite added_app, Fa. cbn. rewrite Nat.eqb_refl. reflexivity.
      + lia.
      + lia.
      + rewrite ran_app, released_app, Fb, Fc. cbn. auto.
    - intros c Hc. destruct (others c (Added (next m) k e) (trace m)) as (A & B & C); [cbn; apply Nat.eqb_neq; lia|]. rewrite A, B, C. apply Fr. lia.
    - intros c Hc Hn. cbn [map name] in Hn. assert (c <> next m) by (intros ->; apply Hn; left; reflexivity).
      unfold finished. destruct (others c (Added (next m) k e) (trace m)) as (A & B & C); [cbn; apply Nat.eqb_neq; lia|]. rewrite A, B, C.
      apply D; [lia|]. intros H2. apply Hn. right. exact H2.
    - cbn [map name]. constructor; assumption.
    - constructor; [cbn; lia|]. eapply Forall_impl; [|exact S]. cbn. intros. lia.
    - split; [cbn; tauto|exact Wt].
    - intros o. rewrite held_app, Hd. cbn [held fold_right]. unfold pending at 2. cbn [here events objects flat_map snd]. rewrite app_nil_r.
      destruct (data e) as [o'|]; [rewrite cnt_one|cbn]; lia.
    - apply kept_app; [exact K|]. intros. discriminate.
    - intros c. rewrite added_app, app_length. cbn. destruct (Nat.eqb_spec (next m) c) as [<-|]; [rewrite Fa; cbn; lia|]. specialize (Bd c). cbn. lia.
  Qed.

  (** Replacing the chain on top, with one action or none of its own *)
  Lemma swap_inv w t m c c' below : Inv m -> stack m = c :: below -> name c' = name c -> ~ waiting c' -> fine t c' ->
    (t = trace m /\ (forall o, cnt o (pending c') = cnt o (pending c)) \/
     exists a, t = trace m ++ [a] /\ mine (name c) a = true /\ (forall o, cnt o (pending c') = held o [a] + cnt o (pending c)) /\
       (forall c0 k e f o, a = Ran c0 k e f -> data e = Some o -> 0 < held o (trace m))) ->
    Inv (mkMachine w (c' :: below) (next m) t).
  Proof.
    intros J Es En Nw F T. destruct J as [IF IFr ID IN IS ISh IH IK IB]. rewrite Es in *. cbn [map] in *.
    inversion IF as [|? ? Fc Fb]; subst. inversion IN as [|? ? N1 N2]; subst. inversion IS as [|? ? S1 S2]; subst. destruct ISh as [_ Wb].
    destruct T as [[-> P]|(a & -> & Me & P & Kp)].
    - constructor; cbn [stack trace next world map]; rewrite ?En; auto.
      + constructor; [rewrite En; exact S1|exact S2].
      + intros o. cbn [fold_right]. rewrite P. apply IH.
    - assert (Ot : forall x, x <> name c -> added x (trace m ++ [a]) = added x (trace m) /\ ran x (trace m ++ [a]) = ran x (trace m) /\ released x (trace m ++ [a]) = released x (trace m)).
      { intros x Hx. apply others. destruct a; cbn in Me |- *; apply Nat.eqb_eq in Me; apply Nat.eqb_neq; congruence. }
      constructor; cbn [stack trace next world map]; rewrite ?En; auto.
      + constructor; [exact F|]. apply (fine_others _ _ (name c)); assumption.
      + intros x Hx. destruct (Ot x) as (A & B & C); [lia|]. rewrite A, B, C. auto.
      + intros x Hx Hn. unfold finished. destruct (Ot x) as (A & B & C); [intros ->; apply Hn; left; reflexivity|]. rewrite A, B, C. apply ID; auto.
      + constructor; [rewrite En; exact S1|exact S2].
      + intros o. rewrite held_app, IH. cbn [fold_right]. rewrite P. lia.
      + apply kept_app; [exact IK|exact Kp].
      + intros x. destruct (Nat.eq_dec x (name c)) as [->|Hx]; [|destruct (Ot x Hx) as (A & _); rewrite A; auto].
        rewrite <- En, (f_added _ _ F). apply (f_size _ _ F).
  Qed.

  Lemma step_inv m m' : Inv m -> step m = Some m' -> Inv m'.
  Proof.
    intros J E. unfold Eventqueue_Model.step in E. destruct (stack m) as [|c below] eqn:Es; [injection E as <-; exact J|].
    pose proof (i_fine _ J) as IF. rewrite Es in IF. inversion IF as [|? ? Fc Fb]; subst.
    pose proof (f_size _ _ Fc) as L. pose proof (f_idx _ _ Fc) as R. pose proof (f_here _ _ Fc) as Hr. pose proof (f_added _ _ Fc) as Ad.
    rewrite size_ok in E by exact L.
    destruct (here c) as [|p|p|j] eqn:Eh.
    - destruct Hr as [Rn Rl]. destruct (Z.ltb_spec (idx c) (Z.of_nat (length (events c)))) as [Lt|Ge].
      + destruct (nth_ok (events c) (Z.to_nat (idx c))) as ([k e] & En); [lia|]. rewrite En in E.
        assert (Hin : forall o, data e = Some o -> 0 < held o (trace m)).
        { intros o Do. rewrite (i_held _ J o), Es. cbn [fold_right].
          assert (P : 0 < cnt o (pending c)).
          { apply cnt_in. unfold pending. rewrite Eh. unfold objects. apply in_flat_map. exists (k, e). split; [eapply nth_error_In; exact En|]. cbn. rewrite Do. left. reflexivity. }
          assert (Q : 0 <= fold_right (fun c s => cnt o (pending c) + s) 0 below).
          { clear. induction below as [|x l IH]; cbn [fold_right]; [lia|]. pose proof (cnt_nonneg o (pending x)). lia. }
          lia. }
        assert (Rn' : forall f, ran (name c) (trace m ++ [Ran (name c) k e f]) = firstn (S (Z.to_nat (idx c))) (events c)).
        { intros f. rewrite ran_app, Rn, (firstn_next _ _ _ En). cbn. rewrite Nat.eqb_refl. reflexivity. }
        assert (Al : forall f, added (name c) (trace m ++ [Ran (name c) k e f]) = events c /\ released (name c) (trace m ++ [Ran (name c) k e f]) = []).
        { intros f. rewrite added_app, released_app, Ad, Rl. cbn. rewrite app_nil_r. auto. }
        assert (m' = mkMachine (world m) ((if has_key (world m) k then at_place c (Running (handle (world m) k e)) else mkChain (name c) (events c) (u8 (idx c + 1)) Next) :: below)
                       (next m) (trace m ++ [Ran (name c) k e (has_key (world m) k)])) by (injection E; auto). subst m'. clear E.
        destruct (Al (has_key (world m) k)) as [A1 A2].
        destruct (has_key (world m) k); apply (swap_inv _ _ m c); auto; try (cbn; tauto).
        * constructor; cbn [name events idx here at_place]; auto.
        * right. eexists. split; [reflexivity|]. split; [cbn; apply Nat.eqb_refl|]. split; [intros o; unfold pending; cbn [here at_place events held]; rewrite Eh; lia|].
          intros c0 k0 e0 f o Ea Do. apply Hin. assert (e0 = e) by congruence. congruence.
        * assert (Hu : u8 (idx c + 1) = idx c + 1) by (unfold u8; apply Z.mod_small; lia).
          constructor; cbn [name events idx here]; rewrite ?Hu; auto; [lia|]. split; [|exact A2]. rewrite Rn'. f_equal. lia.
        * right. eexists. split; [reflexivity|]. split; [cbn; apply Nat.eqb_refl|]. split; [intros o; unfold pending; cbn [here at_place events held]; rewrite Eh; lia|].
          intros c0 k0 e0 f o Ea Do. apply Hin. assert (e0 = e) by congruence. congruence.
      + assert (m' = mkMachine (world m) (at_place c (Cleanup 0) :: below) (next m) (trace m)) by (injection E; auto). subst m'. clear E.
        apply (swap_inv _ _ m c); auto; try (cbn; tauto).
        * constructor; cbn [name events idx here at_place]; auto. split; [lia|]. split; [rewrite Rn; apply firstn_all2; lia|exact Rl].
        * left. split; [reflexivity|]. intros o. unfold pending. rewrite Eh. reflexivity.
    - destruct p as [w|k e rest|w k e rest].
      + destruct Hr as (Lt & Rn & Rl). assert (Hu : u8 (idx c + 1) = idx c + 1) by (unfold u8; apply Z.mod_small; lia).
        assert (m' = mkMachine w (mkChain (name c) (events c) (u8 (idx c + 1)) Next :: below) (next m) (trace m)) by (injection E; auto). subst m'. clear E.
        apply (swap_inv _ _ m c); auto; try (cbn; tauto).
        * constructor; cbn [name events idx here]; rewrite ?Hu; auto; [lia|]. split; [|exact Rl]. rewrite Rn. f_equal. lia.
        * left. split; [reflexivity|]. intros o. unfold pending. rewrite Eh. reflexivity.
      + destruct Hr as (Lt & Rn & Rl). destruct (add_event c k e) as [c'|] eqn:A; [|discriminate].
        apply add_event_some in A; [|exact L]. destruct A as [-> L'].
        match type of E with Some ?x = Some m' => assert (m' = x) by (injection E; auto) end. subst m'. clear E.
        apply (swap_inv _ _ m c); auto; try (cbn; tauto).
        * constructor; cbn [name events idx here at_place]; rewrite ?app_length; cbn [length]; try lia.
          -- rewrite added_app, Ad. cbn. rewrite Nat.eqb_refl. reflexivity.
          -- split; [lia|]. rewrite ran_app, released_app, Rn, Rl. cbn [ran released flat_map app]. rewrite app_nil_r. split; [|reflexivity].
             rewrite firstn_app. replace (S (Z.to_nat (idx c)) - length (events c))%nat with 0%nat by lia. cbn [firstn]. rewrite app_nil_r. reflexivity.
        * right. eexists. split; [reflexivity|]. split; [cbn; apply Nat.eqb_refl|]. split; [|intros; discriminate].
          intros o. unfold pending. rewrite Eh. cbn [here at_place events]. rewrite objects_app, cnt_app. cbn [objects flat_map snd held].
          rewrite app_nil_r. destruct (data e) as [o'|]; [rewrite cnt_one|cbn]; lia.
      + pose proof J as [JF JFr JD JN JS JSh JH JK JB]. rewrite Es in *. cbn [map] in *. destruct Hr as (Lt & Rn & Rl).
        eapply start_inv; [..|exact E]; cbn [stack trace next world map name at_place]; auto.
        * constructor; [|exact Fb]. constructor; cbn [name events idx here at_place]; auto.
        * inversion JS; subst. constructor; auto.
        * destruct JSh as [_ Wb]. constructor; [exact I|exact Wb].
        * intros o. rewrite JH. cbn [fold_right]. unfold pending. cbn [here at_place events]. rewrite Eh. reflexivity.
    - discriminate.
    - destruct Hr as (Rj & Rn & Rl). destruct (Z.ltb_spec j (Z.of_nat (length (events c)))) as [Lt|Ge].
      + destruct (nth_ok (events c) (Z.to_nat j)) as ([k e] & En); [lia|]. rewrite En in E.
        assert (Hu : u8 (j + 1) = j + 1) by (unfold u8; apply Z.mod_small; lia).
        match type of E with Some ?x = Some m' => assert (m' = x) by (injection E; auto) end. subst m'. clear E.
        assert (Ob : objects (firstn (Z.to_nat (j + 1)) (events c)) = objects (firstn (Z.to_nat j) (events c)) ++ match data e with Some o => [o] | None => [] end).
        { replace (Z.to_nat (j + 1)) with (S (Z.to_nat j)) by lia. rewrite (firstn_next _ _ _ En), objects_app. cbn. rewrite app_nil_r. reflexivity. }
        assert (Pe : forall o, cnt o (objects (skipn (Z.to_nat j) (events c))) = cnt o (match data e with Some o => [o] | None => [] end) + cnt o (objects (skipn (Z.to_nat (j + 1)) (events c)))).
        { intros o. replace (Z.to_nat (j + 1)) with (S (Z.to_nat j)) by lia. rewrite (skipn_next _ _ _ En). cbn [objects flat_map snd]. apply cnt_app. }
        destruct (data e) as [o0|] eqn:Ed.
        * apply (swap_inv _ _ m c); auto; try (cbn; tauto).
          -- constructor; cbn [name events idx here at_place]; rewrite ?Hu; auto.
             ++ rewrite added_app, Ad. cbn. apply app_nil_r.
             ++ split; [lia|]. rewrite ran_app, released_app, Rn, Rl, Ob. cbn. rewrite Nat.eqb_refl, app_nil_r. auto.
          -- right. eexists. split; [reflexivity|]. split; [cbn; apply Nat.eqb_refl|]. split; [|intros; discriminate].
             intros o. unfold pending. rewrite Eh. cbn [here at_place events held]. rewrite Hu, Pe, cnt_one. lia.
        * rewrite app_nil_r. apply (swap_inv _ _ m c); auto; try (cbn; tauto).
          -- constructor; cbn [name events idx here at_place]; rewrite ?Hu; auto. split; [lia|]. rewrite Ob, app_nil_r. auto.
          -- left. split; [reflexivity|]. intros o. unfold pending. rewrite Eh. cbn [here at_place events]. rewrite Hu, Pe. cbn. lia.
      + match type of E with Some ?x = Some m' => assert (m' = x) by (injection E; auto) end. subst m'. clear E.
        pose proof J as [JF JFr JD JN JS JSh JH JK JB]. rewrite Es in *. cbn [map] in *. destruct JSh as [_ Wb].
        inversion JN as [|? ? N1 N2]; subst. inversion JS as [|? ? S1 S2]; subst.
        assert (Dn : finished (trace m) (name c)).
        { split; [rewrite Rn, Ad; reflexivity|]. rewrite Rl, Ad. f_equal. apply firstn_all2. lia. }
        assert (P0 : forall o, cnt o (pending c) = 0).
        { intros o. unfold pending. rewrite Eh. rewrite skipn_all2 by lia. reflexivity. }
        destruct below as [|b below']; cbn [map] in *.
        * constructor; cbn [stack trace next world map]; auto; try apply Forall_nil; try apply NoDup_nil.
          -- intros x Hx _. destruct (Nat.eq_dec x (name c)) as [->|Hn]; [exact Dn|]. apply JD; auto. intros [H|[]]; congruence.
          -- intros o. rewrite JH. cbn [fold_right]. rewrite P0. lia.
        * inversion Wb as [|? ? Wb1 Wb2]; subst. unfold waiting in Wb1. destruct (here b) as [| |q|] eqn:Ehb; try contradiction.
          inversion Fb as [|? ? Fb1 Fb2]; subst. inversion N2 as [|? ? N3 N4]; subst. inversion S2 as [|? ? S3 S4]; subst.
          constructor; cbn [stack trace next world map name at_place]; auto.
          -- constructor; [|exact Fb2]. destruct Fb1 as [G1 G2 G3 G4]. rewrite Ehb in G4. constructor; cbn [name events idx here at_place]; auto.
          -- intros x Hx Hn. destruct (Nat.eq_dec x (name c)) as [->|Hne]; [exact Dn|]. apply JD; auto. intros [H|H]; [congruence|]. apply Hn. exact H.
          -- intros o. pose proof (JH o) as Q. cbn [fold_right] in Q. rewrite Q.
             assert (Pb : pending (at_place b (Running (q (world m)))) = pending b) by (unfold pending; cbn [here at_place events]; rewrite Ehb; reflexivity).
             cbn [fold_right]. rewrite P0, Pb. reflexivity.
  Qed.

  Lemma launch_inv w k e m : launch w k e = Some m -> Inv m.
  Proof.
    intros E. eapply start_inv; [..|exact E]; cbn; auto; try apply Forall_nil; try apply NoDup_nil; try lia.
    intros t1 c k0 e0 f t2 o H. destruct t1; discriminate.
  Qed.
  Lemma steps_inv n : forall m m', Inv m -> steps n m = Some m' -> Inv m'.
  Proof.
    induction n as [|n IH]; intros m m' J E; cbn in E; [injection E as <-; exact J|].
    destruct (Eventqueue_Model.step has_key handle m) as [m1|] eqn:E1; [|discriminate]. eapply IH; [|exact E]. eapply step_inv; eauto.
  Qed.
End Inv.
