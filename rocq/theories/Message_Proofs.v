From Verif Require Import Base Message_Model Message_Spec.

Section Reassembly.
  Variable m : message.
  Variable n lim : nat.
  Hypothesis Hn : parts m = Z.of_nat n.
  Hypothesis Hn1 : (1 <= n)%nat.
  Hypothesis Hn2 : Z.of_nat n <= 65535.
  Hypothesis Hlim : (lim <= n)%nat.
  Hypothesis Hmac : 0 <= mac16 m.
  Hypothesis Hwrap : mac16 m + Z.of_nat lim <= 65536.

  Notation pk := (packet_of m).
  Lemma id_of c : (c < lim)%nat -> pmac16 (pk c) = mac16 m + Z.of_nat c.
  Proof. intros H. cbn. unfold u16. rewrite Z.mod_small; auto. lia. Qed.
  Lemma pk_inj c d : (c < lim)%nat -> (d < lim)%nat -> pk c = pk d -> c = d.
  Proof. intros Hc Hd E. pose proof (id_of c Hc). pose proof (id_of d Hd). rewrite E in H. lia. Qed.
  Lemma mac_eqb_spec c d : (c < lim)%nat -> (d < lim)%nat -> mac_eqb (pk c) (pk d) = (c =? d)%nat.
  Proof.
    intros Hc Hd. unfold mac_eqb. rewrite !id_of by auto. cbn [pmac_rest packet_of]. destruct (list_eq_dec Z.eq_dec (mac_rest m) (mac_rest m)); [|congruence].
    rewrite andb_true_r. destruct (Nat.eqb_spec c d), (Z.eqb_spec (mac16 m + Z.of_nat c) (mac16 m + Z.of_nat d)); auto; lia.
  Qed.

  Lemma Some_pk c d : Some (pk c) = Some (pk d) -> pk c = pk d.
  Proof. intros H. congruence. Qed.

  (** chunks [R] received once each, [b] the smallest *)
  Record inv (s : rstate) (b : nat) (R : list nat) : Prop := {
    i_len : length (slots s) = n;
    i_base : base s = mac16 m + Z.of_nat b;
    i_slot0 : nth 0 (slots s) None = Some (pk b);
    i_bound : forall c, In c R -> (b <= c < lim)%nat;
    i_b : In b R;
    i_from : forall i x, nth i (slots s) None = Some x -> exists c, In c R /\ x = pk c /\ (i <= c - b)%nat;
    i_to : forall c, In c R -> exists i, nth i (slots s) None = Some (pk c);
    i_uniq : forall i j c, nth i (slots s) None = Some (pk c) -> nth j (slots s) None = Some (pk c) -> In c R -> i = j;
    i_nd : NoDup R;
    i_count : counter s = Z.of_nat (length R)
  }.

  Lemma nth_Some_lt {B} (l : list (option B)) i x : nth i l None = Some x -> (i < length l)%nat.
  Proof. intros H. destruct (le_lt_dec (length l) i) as [Hl|]; auto. rewrite nth_overflow in H by auto. discriminate. Qed.

  Lemma inv_len_lim s b R : inv s b R -> (length R <= lim - b)%nat.
  Proof.
    intros I. assert (H : (length R <= length (seq b (lim - b)))%nat).
    { apply NoDup_incl_length; [apply (i_nd _ _ _ I)|]. intros c Hc. apply in_seq. pose proof (i_bound _ _ _ I c Hc). lia. }
    rewrite seq_length in H. auto.
  Qed.

  (** inserting a chunk that is not there, above the base *)
  Lemma insert_ok : forall fuel s b R c, inv s b R -> ~ In c R -> (b < c < lim)%nat -> (lim - c <= fuel)%nat ->
    exists s', add_chunk fuel s (pk c) = Ok (true, s') /\ inv s' b (c :: R).
  Proof.
    induction fuel as [|fuel IH]; intros s b R c I Hc Hb Hf; [lia|].
    assert (Hid : pmac16 (pk c) = mac16 m + Z.of_nat c) by (apply id_of; lia).
    cbn [add_chunk]. rewrite Hid, (i_base _ _ _ I).
    replace (mac16 m + Z.of_nat c =? mac16 m + Z.of_nat b) with false by lia.
    replace (mac16 m + Z.of_nat c <? mac16 m + Z.of_nat b) with false by lia.
    assert (Ei : Z.to_nat (u16 (mac16 m + Z.of_nat c - (mac16 m + Z.of_nat b))) = (c - b)%nat) by (unfold u16; rewrite Z.mod_small; lia).
    rewrite Ei. rewrite (i_len _ _ _ I). rewrite (proj2 (Nat.leb_gt n (c - b))) by lia.
    assert (Hupd : forall i, nth i (upd (slots s) (c - b) (Some (pk c))) None = if Nat.eqb i (c - b) then Some (pk c) else nth i (slots s) None).
    { intros i. destruct (Nat.eqb_spec i (c - b)) as [->|Hne]; [apply upd_nth_eq; rewrite (i_len _ _ _ I); lia|apply upd_nth_neq; auto]. }
    destruct (nth (c - b) (slots s) None) as [x|] eqn:Ex.
    - destruct (i_from _ _ _ I _ _ Ex) as (d & Hd & -> & Hle). pose proof (i_bound _ _ _ I d Hd) as Hbd.
      assert (Hdc : (c < d)%nat). { assert (d <> c) by (intros ->; auto). lia. }
      rewrite mac_eqb_spec by lia. rewrite (proj2 (Nat.eqb_neq c d)) by lia.
      set (s1 := mkR (upd (slots s) (c - b) (Some (pk c))) (mac16 m + Z.of_nat b) (counter s)).
      set (R1 := c :: filter (fun e => negb (Nat.eqb e d)) R).
      assert (InF : forall e, In e (filter (fun e => negb (Nat.eqb e d)) R) <-> In e R /\ e <> d).
      { intros e. rewrite filter_In. destruct (Nat.eqb_spec e d); cbn; intuition congruence. }
      assert (I1 : inv s1 b R1).
      { constructor.
        - cbn. rewrite upd_length. apply (i_len _ _ _ I).
        - reflexivity.
        - cbn [slots s1]. rewrite Hupd. rewrite (proj2 (Nat.eqb_neq 0 (c - b))) by lia. apply (i_slot0 _ _ _ I).
        - intros e [<-|He]; [lia|]. apply InF in He. apply (i_bound _ _ _ I). tauto.
        - right. apply InF. split; [apply (i_b _ _ _ I)|lia].
        - intros i x H. cbn [slots s1] in H. rewrite Hupd in H. destruct (Nat.eqb_spec i (c - b)) as [->|Hne].
          + apply (f_equal (fun o => match o with Some y => y | None => pk 0%nat end)) in H; cbn beta iota in H; subst x. exists c. split; [left; auto|]. split; auto.
          + destruct (i_from _ _ _ I _ _ H) as (e & He & -> & Hl). exists e. split; auto. right. apply InF. split; auto.
            intros ->. apply Hne. apply (i_uniq _ _ _ I i (c - b)%nat d); auto.
        - intros e [<-|He].
          + exists (c - b)%nat. cbn [slots s1]. rewrite Hupd, Nat.eqb_refl. auto.
          + apply InF in He. destruct He as [He Hne]. destruct (i_to _ _ _ I e He) as (i & Hi). exists i. cbn [slots s1]. rewrite Hupd.
            destruct (Nat.eqb_spec i (c - b)) as [->|]; auto. rewrite Ex in Hi. apply Some_pk in Hi. exfalso. apply Hne.
            pose proof (i_bound _ _ _ I e He). symmetry. apply pk_inj; auto; lia.
        - intros i j e H1 H2 He. cbn [slots s1] in *. rewrite Hupd in H1, H2.
          destruct He as [<-|He].
          + assert (G : forall k, (if (k =? c - b)%nat then Some (pk c) else nth k (slots s) None) = Some (pk c) -> k = (c - b)%nat).
            { intros k Hk. destruct (Nat.eqb_spec k (c - b)); auto. destruct (i_from _ _ _ I _ _ Hk) as (e & He & Ee & _).
              exfalso. apply Hc. pose proof (i_bound _ _ _ I e He). rewrite (pk_inj c e); auto; lia. }
            rewrite (G i H1), (G j H2). auto.
          + apply InF in He. destruct He as [He Hne]. pose proof (i_bound _ _ _ I e He).
            assert (e <> c) by (intros ->; auto).
            destruct (Nat.eqb_spec i (c - b)); [exfalso; apply Some_pk in H1; apply H0; symmetry; apply pk_inj; auto; lia|].
            destruct (Nat.eqb_spec j (c - b)); [exfalso; apply Some_pk in H2; apply H0; symmetry; apply pk_inj; auto; lia|].
            apply (i_uniq _ _ _ I i j e); auto.
        - constructor; [|apply NoDup_filter, (i_nd _ _ _ I)]. intros H. apply InF in H. tauto.
        - cbn [counter s1 length R1]. rewrite (i_count _ _ _ I). f_equal.
          pose proof (i_nd _ _ _ I) as N. clear -N Hd. induction R as [|e R IH]; [destruct Hd|]. cbn [filter length].
          inversion N; subst. destruct (Nat.eqb_spec e d) as [->|Hne]; cbn [negb length].
          + f_equal. f_equal. clear -H1. induction R as [|f R IH]; cbn; auto. destruct (Nat.eqb_spec f d) as [->|]; cbn; [exfalso; apply H1; left; auto|f_equal; apply IH; intros H; apply H1; right; auto].
          + destruct Hd as [->|Hd]; [congruence|]. f_equal. apply IH; auto. }
      destruct (IH s1 b R1 d I1) as (s2 & E2 & I2).
      + intros [H|H]; [lia|]. apply InF in H. tauto.
      + lia.
      + lia.
      + fold s1. rewrite E2. cbn [obind]. exists s2. split; auto.
        (* same set *)
        assert (P : forall e, In e (d :: R1) <-> In e (c :: R)).
        { intros e. cbn. rewrite InF. destruct (Nat.eq_dec e d) as [->|]; intuition. }
        assert (Hl : length (d :: R1) = length (c :: R)).
        { apply Nat.le_antisymm; apply NoDup_incl_length.
          - apply (i_nd _ _ _ I2).
          - intros e He. apply P. auto.
          - constructor; auto. apply (i_nd _ _ _ I).
          - intros e He. apply P. auto. }
        constructor; try apply I2.
        * intros e He. apply (i_bound _ _ _ I2). apply P. auto.
        * apply P. apply (i_b _ _ _ I2).
        * intros i x Hx. destruct (i_from _ _ _ I2 i x Hx) as (e & He & R2). exists e. split; auto. apply P. auto.
        * intros e He. apply (i_to _ _ _ I2). apply P; auto.
        * intros i j e H1 H2 He. apply (i_uniq _ _ _ I2 i j e); auto. apply P. auto.
        * constructor; auto. apply (i_nd _ _ _ I).
        * rewrite (i_count _ _ _ I2), Hl. auto.
    - eexists. split; [reflexivity|]. constructor; cbn [slots base counter].
      + rewrite upd_length. apply (i_len _ _ _ I).
      + auto.
      + rewrite Hupd. rewrite (proj2 (Nat.eqb_neq 0 (c - b))) by lia. apply (i_slot0 _ _ _ I).
      + intros e [<-|He]; [lia|]. apply (i_bound _ _ _ I); auto.
      + right. apply (i_b _ _ _ I).
      + intros i x H. rewrite Hupd in H. destruct (Nat.eqb_spec i (c - b)) as [->|Hne].
        * apply (f_equal (fun o => match o with Some y => y | None => pk 0%nat end)) in H; cbn beta iota in H; subst x. exists c. split; [left; auto|]. auto.
        * destruct (i_from _ _ _ I _ _ H) as (e & He & -> & Hl). exists e. split; [right|]; auto.
      + intros e [<-|He].
        * exists (c - b)%nat. rewrite Hupd, Nat.eqb_refl. auto.
        * destruct (i_to _ _ _ I e He) as (i & Hi). exists i. rewrite Hupd. destruct (Nat.eqb_spec i (c - b)) as [->|]; auto. congruence.
      + intros i j e H1 H2 He. rewrite Hupd in H1, H2.
        destruct He as [<-|He].
        * assert (G : forall k, (if (k =? c - b)%nat then Some (pk c) else nth k (slots s) None) = Some (pk c) -> k = (c - b)%nat).
          { intros k Hk. destruct (Nat.eqb_spec k (c - b)); auto. destruct (i_from _ _ _ I _ _ Hk) as (e & He & Ee & _).
            exfalso. apply Hc. pose proof (i_bound _ _ _ I e He). rewrite (pk_inj c e); auto; lia. }
          rewrite (G i H1), (G j H2). auto.
        * pose proof (i_bound _ _ _ I e He). assert (e <> c) by (intros ->; auto).
          destruct (Nat.eqb_spec i (c - b)); [exfalso; apply Some_pk in H1; apply H0; symmetry; apply pk_inj; auto; lia|].
          destruct (Nat.eqb_spec j (c - b)); [exfalso; apply Some_pk in H2; apply H0; symmetry; apply pk_inj; auto; lia|].
          apply (i_uniq _ _ _ I i j e); auto.
      + constructor; auto. apply (i_nd _ _ _ I).
      + rewrite (i_count _ _ _ I). 
        assert (Hx : (length (c :: R) <= length (seq b (lim - b)))%nat).
        { apply NoDup_incl_length; [constructor; auto; apply (i_nd _ _ _ I)|]. intros e [<-|He]; apply in_seq; [lia|pose proof (i_bound _ _ _ I e He); lia]. }
        rewrite seq_length in Hx. cbn [length] in *. unfold u16. rewrite Z.mod_small; lia.
  Qed.

  (** a chunk below the base *)
  Lemma insert_below fuel s b R c : inv s b R -> (c < b)%nat -> (lim <= fuel)%nat ->
    exists s', add_chunk (S fuel) s (pk c) = Ok (true, s') /\ inv s' c (c :: R).
  Proof.
    intros I Hc Hf. pose proof (i_bound _ _ _ I b (i_b _ _ _ I)) as Hb.
    assert (Hid : pmac16 (pk c) = mac16 m + Z.of_nat c) by (apply id_of; lia).
    assert (HcR : ~ In c R) by (intros H; pose proof (i_bound _ _ _ I c H); lia).
    cbn [add_chunk]. rewrite Hid, (i_base _ _ _ I).
    replace (mac16 m + Z.of_nat c =? mac16 m + Z.of_nat b) with false by lia.
    replace (mac16 m + Z.of_nat c <? mac16 m + Z.of_nat b) with true by lia.
    destruct (slots s) as [|o rest] eqn:Es; [pose proof (i_len _ _ _ I) as Hl; rewrite Es in Hl; cbn in Hl; lia|].
    pose proof (i_slot0 _ _ _ I) as H0. rewrite Es in H0. cbn in H0. subst o.
    set (s1 := mkR (Some (pk c) :: rest) (mac16 m + Z.of_nat c) (counter s)).
    set (R1 := c :: filter (fun e => negb (Nat.eqb e b)) R).
    assert (InF : forall e, In e (filter (fun e => negb (Nat.eqb e b)) R) <-> In e R /\ e <> b).
    { intros e. rewrite filter_In. destruct (Nat.eqb_spec e b); cbn; intuition congruence. }
    assert (Hs : forall i, nth i (slots s) None = match i with O => Some (pk b) | S j => nth j rest None end) by (intros i; rewrite Es; destruct i; auto).
    assert (Hs1 : forall i, nth i (slots s1) None = match i with O => Some (pk c) | S j => nth j rest None end) by (intros i; destruct i; auto).
    assert (I1 : inv s1 c R1).
    { constructor.
      - cbn. pose proof (i_len _ _ _ I) as Hl. rewrite Es in Hl. auto.
      - reflexivity.
      - reflexivity.
      - intros e [<-|He]; [lia|]. apply InF in He. destruct He as [He _]. pose proof (i_bound _ _ _ I e He). lia.
      - left; auto.
      - intros i x H. rewrite Hs1 in H. destruct i as [|j]; [apply (f_equal (fun o => match o with Some y => y | None => pk 0%nat end)) in H; cbn beta iota in H; subst x; exists c; split; [left; auto|split; [auto|lia]]|].
        assert (Hi : nth (S j) (slots s) None = Some x) by (rewrite Hs; auto).
        destruct (i_from _ _ _ I _ _ Hi) as (e & He & -> & Hl). exists e. split; [|split; [auto|lia]]. right. apply InF. split; auto.
        intros ->. assert (Hz : nth 0 (slots s) None = Some (pk b)) by (rewrite Hs; auto). pose proof (i_uniq _ _ _ I _ _ _ Hi Hz He). discriminate.
      - intros e [<-|He]; [exists 0%nat; auto|]. apply InF in He. destruct He as [He Hne]. destruct (i_to _ _ _ I e He) as (i & Hi). exists i. rewrite Hs1. rewrite Hs in Hi.
        destruct i; auto. apply Some_pk in Hi. exfalso. apply Hne. symmetry. pose proof (i_bound _ _ _ I e He). apply pk_inj; auto; lia.
      - intros i j e H1 H2 He. rewrite Hs1 in H1, H2.
        assert (G : forall k, nth k rest None = Some (pk c) -> False).
        { intros k Hk. assert (Hx : nth (S k) (slots s) None = Some (pk c)) by (rewrite Hs; auto).
          destruct (i_from _ _ _ I _ _ Hx) as (e' & He' & Ee & _). apply HcR. pose proof (i_bound _ _ _ I e' He'). rewrite (pk_inj c e'); auto; lia. }
        destruct He as [<-|He].
        + destruct i, j; auto; exfalso; eauto.
        + apply InF in He. destruct He as [He Hne]. pose proof (i_bound _ _ _ I e He).
          destruct i as [|i]; [exfalso; apply Some_pk in H1; apply pk_inj in H1; lia|].
          destruct j as [|j]; [exfalso; apply Some_pk in H2; apply pk_inj in H2; lia|].
          apply (i_uniq _ _ _ I (S i) (S j) e); auto; rewrite Hs; auto.
      - constructor; [|apply NoDup_filter, (i_nd _ _ _ I)]. intros H. apply InF in H. tauto.
      - cbn [counter s1 length R1]. rewrite (i_count _ _ _ I). f_equal.
        pose proof (i_nd _ _ _ I) as N. pose proof (i_b _ _ _ I) as Hd. clear -N Hd. induction R as [|e R IH]; [destruct Hd|]. cbn [filter length].
        inversion N; subst. destruct (Nat.eqb_spec e b) as [->|Hne]; cbn [negb length].
        + f_equal. f_equal. clear -H1. induction R as [|f R IH]; cbn; auto. destruct (Nat.eqb_spec f b) as [->|]; cbn; [exfalso; apply H1; left; auto|f_equal; apply IH; intros H; apply H1; right; auto].
        + destruct Hd as [->|Hd]; [congruence|]. f_equal. apply IH; auto. }
    destruct (insert_ok fuel s1 c R1 b I1) as (s2 & E2 & I2).
    - intros [H|H]; [lia|]. apply InF in H. tauto.
    - lia.
    - lia.
    - fold s1. rewrite E2. cbn [obind]. exists s2. split; auto.
      assert (P : forall e, In e (b :: R1) <-> In e (c :: R)).
      { intros e. cbn. rewrite InF. pose proof (i_b _ _ _ I). destruct (Nat.eq_dec e b) as [->|]; intuition. }
      assert (Hl : length (b :: R1) = length (c :: R)).
      { apply Nat.le_antisymm; apply NoDup_incl_length.
        - apply (i_nd _ _ _ I2).
        - intros e He. apply P. auto.
        - constructor; auto. apply (i_nd _ _ _ I).
        - intros e He. apply P. auto. }
      constructor; try apply I2.
      * intros e He. apply (i_bound _ _ _ I2). apply P. auto.
      * left; auto.
      * intros i x Hx. destruct (i_from _ _ _ I2 i x Hx) as (e & He & R2). exists e. split; auto. apply P. auto.
      * intros e He. apply (i_to _ _ _ I2). apply P; auto.
      * intros i j e H1 H2 He. apply (i_uniq _ _ _ I2 i j e); auto. apply P. auto.
      * constructor; auto. apply (i_nd _ _ _ I).
      * rewrite (i_count _ _ _ I2), Hl. auto.
  Qed.

  Lemma first_ok c : (c < lim)%nat -> exists s, first_chunk (pk c) = Ok (true, s) /\ inv s c [c].
  Proof.
    intros Hc. unfold first_chunk. cbn [pparts packet_of]. rewrite Hn. replace (Z.of_nat n =? 0) with false by lia.
    eexists. split; [reflexivity|].
    assert (Hnth : forall i x, nth i (Some (pk c) :: repeat None (Z.to_nat (Z.of_nat n) - 1)) None = Some x -> i = 0%nat /\ x = pk c).
    { intros [|i] x H; cbn in H; [apply (f_equal (fun o => match o with Some y => y | None => pk 0%nat end)) in H; cbn beta iota in H; subst x; auto|]. exfalso. revert H. rewrite Nat2Z.id. generalize (n - 1)%nat. intros k. revert i.
      induction k as [|k IH]; intros [|i] H; cbn in H; try discriminate. eauto. }
    constructor; cbn [slots base counter].
    - cbn. rewrite repeat_length. lia.
    - apply id_of; auto.
    - auto.
    - intros e [<-|[]]. lia.
    - left; auto.
    - intros i x H. apply Hnth in H. destruct H as [-> ->]. exists c. split; [left; auto|]. split; auto. lia.
    - intros e [<-|[]]. exists 0%nat. auto.
    - intros i j e H1 H2 _. apply Hnth in H1, H2. lia.
    - repeat constructor; auto.
    - reflexivity.
  Qed.

  Lemma receive_all_app fuel o l1 l2 : receive_all fuel o (l1 ++ l2) = obind (receive_all fuel o l1) (fun o' => receive_all fuel o' l2).
  Proof.
    revert o. induction l1 as [|p l1 IH]; intros o; cbn [app receive_all obind]; auto.
    destruct (receive fuel o p) as [[b s]| |]; cbn [obind]; auto.
  Qed.

  (** any arrival order of distinct chunks *)
  Lemma receive_perm fuel cs : (lim < fuel)%nat -> NoDup cs -> (forall c, In c cs -> (c < lim)%nat) -> cs <> [] ->
    exists s b R, receive_all fuel None (map pk cs) = Ok (Some s) /\ inv s b R /\ (forall c, In c R <-> In c cs).
  Proof.
    intros Hf N Hb Hne.
    assert (G : forall cs2 s b R, inv s b R -> NoDup cs2 -> (forall c, In c cs2 -> (c < lim)%nat /\ ~ In c R) ->
      exists s' b' R', receive_all fuel (Some s) (map pk cs2) = Ok (Some s') /\ inv s' b' R' /\ (forall c, In c R' <-> In c R \/ In c cs2)).
    { induction cs2 as [|c cs2 IH]; intros s b R I N2 H2.
      - exists s, b, R. cbn. split; auto. split; auto. intuition.
      - cbn [map receive_all]. cbn [receive]. inversion N2; subst. destruct (H2 c (or_introl eq_refl)) as [Hc Hr].
        assert (exists s1 b1, add_chunk fuel s (pk c) = Ok (true, s1) /\ inv s1 b1 (c :: R)) as (s1 & b1 & E1 & I1).
        { destruct (lt_eq_lt_dec c b) as [[Hlt|He]|Hgt].
          - destruct fuel as [|f]; [lia|]. destruct (insert_below f s b R c I Hlt) as (s1 & E1 & I1); [lia|]. exists s1, c. auto.
          - exfalso. subst. apply Hr. apply (i_b _ _ _ I).
          - destruct (insert_ok fuel s b R c I Hr) as (s1 & E1 & I1); [lia|lia|]. exists s1, b. auto. }
        rewrite E1. cbn [obind]. destruct (IH s1 b1 (c :: R) I1) as (s' & b' & R' & E' & I' & H'); auto.
        + intros e He. destruct (H2 e (or_intror He)). split; auto. intros [<-|Hx]; auto.
        + exists s', b', R'. split; auto. split; auto. intros e. rewrite H'. cbn. intuition. }
    destruct cs as [|c cs]; [congruence|]. cbn [map receive_all receive].
    destruct (first_ok c) as (s & E & I); [apply Hb; left; auto|]. rewrite E. cbn [obind]. inversion N; subst.
    destruct (G cs s c [c] I) as (s' & b' & R' & E' & I' & H'); auto.
    - intros e He. split; [apply Hb; right; auto|]. intros [->|[]]. auto.
    - exists s', b', R'. split; auto. split; auto. intros e. rewrite H'. cbn. intuition.
  Qed.

  Lemma complete_slots s b R : inv s b R -> lim = n -> (forall c, (c < n)%nat -> In c R) ->
    b = 0%nat /\ slots s = map (fun c => Some (pk c)) (seq 0 n).
  Proof.
    intros I El H. assert (b = 0%nat). { pose proof (i_bound _ _ _ I 0%nat (H 0%nat ltac:(lia))). lia. } split; auto. subst b.
    assert (G : forall c, (c < n)%nat -> nth c (slots s) None = Some (pk c)).
    { intros c. induction c as [c IH] using lt_wf_ind. intros Hc. destruct (i_to _ _ _ I c (H c Hc)) as (i & Hi).
      pose proof (i_from _ _ _ I i _ Hi) as (c' & Hc' & Ec & Hle). pose proof (i_bound _ _ _ I c' Hc').
      apply pk_inj in Ec; [|lia|lia]. subst c'. destruct (Nat.eq_dec i c) as [->|Hne]; auto. exfalso.
      rewrite (IH i) in Hi by lia. apply Some_pk in Hi. apply pk_inj in Hi; lia. }
    apply nth_ext with (d := None) (d' := None); [rewrite map_length, seq_length; apply (i_len _ _ _ I)|].
    intros i Hi. rewrite (i_len _ _ _ I) in Hi. rewrite G by auto.
    rewrite (nth_indep _ None (Some (pk 0%nat))) by (rewrite map_length, seq_length; auto).
    rewrite (map_nth (fun c => Some (pk c))), seq_nth by auto. auto.
  Qed.

  Lemma bodies_slices k i : bodies (map (fun c => Some (pk c)) (seq i k)) =
    Some (slice (body m) (i * 900) (k * 900)).
  Proof.
    revert i. induction k as [|k IH]; intros i.
    - cbn [seq map bodies]. unfold slice. reflexivity.
    - cbn [seq map bodies]. rewrite IH. cbn [option_map pbody packet_of]. f_equal. unfold slice.
      change (Z.to_nat chunk_bytes) with 900%nat. change (S k * 900)%nat with (900 + k * 900)%nat.
      change (S i * 900)%nat with (900 + i * 900)%nat.
      assert (Hsk : skipn (900 + i * 900) (body m) = skipn 900 (skipn (i * 900) (body m))).
      { generalize (i * 900)%nat. generalize 900%nat. intros a b. generalize (body m). clear. revert a. induction b as [|b IH]; intros a l; cbn.
        - rewrite Nat.add_0_r. auto.
        - replace (a + S b)%nat with (S (a + b)) by lia. destruct l; cbn; [destruct a; auto; rewrite skipn_nil; auto|]. apply IH. }
      rewrite Hsk. generalize (skipn (i * 900) (body m)). intros l. generalize 900%nat (k * 900)%nat. clear. intros a b.
      revert l. induction a as [|a IH]; intros l; cbn; auto. destruct l; cbn; [rewrite !firstn_nil; auto|]. f_equal. apply IH.
  Qed.

  Lemma deserialize_ok s b R : inv s b R -> lim = n -> (forall c, (c < n)%nat -> In c R) -> mac16 m < 65536 -> 0 <= nonce16 m < 65536 ->
    Z.of_nat (length (body m)) = parts m * 900 -> deserialize_chunks s = Ok (Some m) /\ counter s = parts m.
  Proof.
    intros I El H Hm Hno Hl. destruct (complete_slots s b R I El H) as (-> & Es). split.
    - unfold deserialize_chunks. rewrite Es. destruct n as [|k] eqn:En; [lia|]. cbn [seq map]. cbn [pparts packet_of]. rewrite Hn.
      replace (Z.of_nat (S k) =? 0) with false by lia.
      change (Some (pk 0%nat) :: map (fun c => Some (pk c)) (seq 1 k)) with (map (fun c => Some (pk c)) (seq 0 (S k))).
      rewrite map_length, seq_length. replace (Z.of_nat (S k) <? Z.of_nat (S k)) with false by lia.
      rewrite Nat2Z.id. rewrite firstn_all2 by (rewrite map_length, seq_length; auto). rewrite bodies_slices. cbn [option_map].
      assert (Hsl : slice (body m) (0 * 900) (S k * 900) = body m).
      { unfold slice. rewrite Nat.mul_0_l. change (skipn 0 (body m)) with (body m). apply firstn_all2.
        apply Nat2Z.inj_le. rewrite Hl, Nat2Z.inj_mul, Hn. cbn [Z.of_nat]. lia. }
      rewrite Hsl. cbn [packet_of pmac16 pmac_rest pnonce16 pnonce_rest pheader pparts]. unfold u16.
      change (Z.of_nat 0) with 0. rewrite Z.add_0_r, Z.sub_0_r, !Z.mod_small by lia. rewrite <- Hn.
      destruct m. reflexivity.
    - rewrite (i_count _ _ _ I), Hn. f_equal.
      assert (incl (seq 0 n) R) by (intros c Hc; apply in_seq in Hc; apply H; lia).
      apply Nat.le_antisymm.
      + pose proof (inv_len_lim _ _ _ I). lia.
      + rewrite <- (seq_length n 0). apply NoDup_incl_length; auto. apply seq_NoDup.
  Qed.
End Reassembly.
