From Verif Require Import Base Heap_Model Heap_Proofs Jobqueue_Model Jobqueue_Proofs Jobqueue_Props Dhkey_Model Tree_Model Tree_Spec Tree_Props Cbor_Model Treeval_Model Treeval_Spec Treeval_Proofs Treeval_Props Wire_Model Data_Model Data_Spec Data_Proofs.
From Verif Require Import In_Model In_Spec In_Proofs Deliver_Model Deliver_Spec.

(** ** Blocks *)
Lemma merge_from_length n U : Z.of_nat (length U) <= 65535 -> forall src, Forall good_entry src -> incl (map fst src) U ->
  forall pre l b r b', Inv n l b -> incl (map fst l) U -> merge_from (length src) (length pre) (pre ++ flat src) b = Done (r, b') -> length b' = length b.
Proof.
  intros HU. induction 1 as [|[k w] src [Gk Gw] Gl IH]; intros Hs pre l b r b' I Hl E.
  - injection E as _ <-. reflexivity.
  - cbn [length merge_from fst snd] in *. rewrite skipn_exact, flat_cons, read_object_ok in E by assumption. cbn [rbind] in E.
    destruct (spec_set_inv n l b k w U I Gk Gw HU (Hs k (or_introl eq_refl)) Hl) as (b1 & E1 & I1 & H1 & L1 & K1).
    rewrite E1 in E. cbn [rbind] in E. unfold spec_set in *. destruct (bytes_needed (put k w l) <=? n); cbn [fst snd] in *.
    + rewrite <- L1. specialize (IH ltac:(intros q Hq; apply Hs; right; exact Hq) (pre ++ Data_Model.encode k w) _ _ r b' I1 H1).
      rewrite app_length, <- app_assoc in IH. apply IH. exact E.
    + injection E as _ <-. exact L1.
Qed.
Lemma merge_whole n ns l ls b bs U : Inv n l b -> Inv ns ls bs -> Z.of_nat (length U) <= 65535 -> incl (map fst l) U -> incl (map fst ls) U ->
  exists b', np_merge_data b bs = Done (fst (spec_merge n ls l), b') /\ Inv n (snd (spec_merge n ls l)) b' /\ length b' = length b.
Proof.
  intros I Is HU Hl Hs. destruct (merge_inv n ns l ls b bs U I Is HU Hl Hs) as (b' & E & I'). exists b'. split; [exact E|]. split; [exact I'|].
  revert E. destruct (inv_hdr ns ls bs Is) as [(A & B & C) M]. unfold np_merge_data.
  destruct (Nat.ltb_spec (length bs) overhead); [lia|]. rewrite (inv_header ns ls bs Is). cbn [h_count h_used].
  pose proof (inv_few _ _ _ Is). pose proof (inv_mem _ _ _ Is). pose proof (inv_fits _ _ _ Is).
  destruct (Z.gtb_spec (bytes_needed ls) (Z.of_nat (length bs))); [lia|].
  destruct (Z.gtb_spec (Z.of_nat (length ls)) 65535); [lia|]. cbn [orb]. rewrite Nat2Z.id.
  destruct (inv_bytes _ _ _ Is) as [rest E]. rewrite (area ns ls bs rest Is E). set (H' := header_bytes _) in *.
  assert (L : length H' = overhead) by (apply header_length; assumption). rewrite <- L. intros E'.
  exact (merge_from_length n U HU ls (inv_good _ _ _ Is) Hs H' l b _ _ I Hl E').
Qed.
Lemma merge_keys n U : forall ls l, incl (map fst ls) U -> incl (map fst l) U -> incl (map fst (snd (spec_merge n ls l))) U.
Proof.
  induction ls as [|[k v] ls IH]; intros l Hs Hl; cbn [spec_merge]; [exact Hl|]. unfold spec_set. destruct (bytes_needed (put k v l) <=? n); cbn [snd]; [|exact Hl].
  apply IH; [intros q Hq; apply Hs; right; exact Hq|]. intros q Hq. destruct (put_key_in k v l q Hq) as [-> | H]; [apply Hs; left; reflexivity|auto].
Qed.
Lemma keys_of_writes n ws : forall l, incl (map fst (snd (spec_writes n ws l))) (map fst ws ++ map fst l).
Proof.
  induction ws as [|[k v] ws IH]; intros l q Hq; cbn [spec_writes] in Hq; [exact Hq|]. unfold spec_set in Hq. destruct (bytes_needed (put k v l) <=? n).
  - specialize (IH (put k v l) q). destruct (spec_writes n ws (put k v l)) as [rs l'']. cbn [snd] in *. specialize (IH Hq). apply in_app_or in IH as [H | H].
    + apply in_or_app. left. right. exact H.
    + destruct (put_key_in k v l q H) as [-> | H']; [left; reflexivity|]. apply in_or_app. auto.
  - specialize (IH l q). destruct (spec_writes n ws l) as [rs l'']. cbn [snd] in *. specialize (IH Hq). right. exact IH.
Qed.
Lemma written_inv ws b U : written ws b -> Forall good_entry ws -> Z.of_nat (length U) <= 65535 -> incl (map fst ws) U ->
  Inv 10240 (content ws) b /\ incl (map fst (content ws)) U /\ Z.of_nat (length b) = 10240.
Proof.
  intros (b0 & b1 & rs & L & E1 & E2) G HU Hi. destruct (init_step b0 10240 ltac:(lia) ltac:(lia)) as (b1' & E1' & I1 & L1 & _). assert (b1' = b1) by congruence. subst b1'.
  destruct (writes_inv 10240 U HU ws [] b1 I1 G Hi ltac:(intros q [])) as (b' & E' & I' & L' & _). assert (b' = b) by congruence. subst b'.
  split; [exact I'|]. split; [|lia]. intros q Hq. apply keys_of_writes in Hq. rewrite app_nil_r in Hq. auto.
Qed.

(** ** The attributes of a message *)
Definition universe (w0 w3 w4 : list (list Z * datum)) : list (list Z) := nodup (list_eq_dec Z.eq_dec) (map fst ((from_key, DBin []) :: w0 ++ w3 ++ w4)).
Lemma from_ok me : length me = 32%nat -> good_key from_key /\ good_value (DBin me) /\ bytes_needed [(from_key, DBin me)] <= 10240.
Proof.
  intros L. assert (K : good_key from_key) by (split; [cbn; lia|]; split; [cbn; lia|]; repeat constructor; lia). assert (V : good_value (DBin me)) by (cbn; rewrite L; lia).
  split; [exact K|]. split; [exact V|]. unfold bytes_needed. cbn [fold_right fst snd]. rewrite <- size_exact by assumption. unfold object_size. cbn. rewrite L. cbn. lia.
Qed.
Lemma attributes_made me w0 w3 w4 cs junk : length me = 32%nat -> caches_of w0 w3 w4 cs -> Z.of_nat (length junk) = 10240 ->
  exists a, message_attributes me cs junk = Done a /\ Inv 10240 (sent_store me w0 w3 w4) a /\ Z.of_nat (length a) = 10240.
Proof.
  intros Lm (b0 & b1 & b2 & b3 & b4 & b5 & -> & W0 & W3 & W4 & G & F) Lj. set (U := universe w0 w3 w4).
  assert (HU : Z.of_nat (length U) <= 65535) by exact F.
  assert (Hin : forall q, In q (from_key :: map fst (w0 ++ w3 ++ w4)) -> In q U) by (intros q Hq; apply nodup_In; exact Hq).
  assert (Hs : forall ws, incl ws (w0 ++ w3 ++ w4) -> incl (map fst ws) U).
  { intros ws Hi q Hq. apply Hin. right. apply in_map_iff in Hq as (e & <- & He). apply in_map. apply Hi. exact He. }
  assert (G' : forall ws, incl ws (w0 ++ w3 ++ w4) -> Forall good_entry ws) by (intros ws Hi; apply Forall_forall; intros e He; rewrite Forall_forall in G; apply G, Hi, He).
  assert (i0 : incl w0 (w0 ++ w3 ++ w4)) by (intros e He; apply in_or_app; auto).
  assert (i3 : incl w3 (w0 ++ w3 ++ w4)) by (intros e He; apply in_or_app; right; apply in_or_app; auto).
  assert (i4 : incl w4 (w0 ++ w3 ++ w4)) by (intros e He; apply in_or_app; right; apply in_or_app; auto).
  destruct (written_inv w0 b0 U W0 (G' _ i0) HU (Hs _ i0)) as (I0 & K0 & _). destruct (written_inv w3 b3 U W3 (G' _ i3) HU (Hs _ i3)) as (I3 & K3 & _).
  destruct (written_inv w4 b4 U W4 (G' _ i4) HU (Hs _ i4)) as (I4 & K4 & _).
  destruct (from_ok me Lm) as (Gk & Gv & Fit).
  destruct (init_step junk 10240 ltac:(lia) ltac:(lia)) as (a0 & E0 & J0 & L0 & _).
  assert (Kf : In from_key U) by (apply Hin; left; reflexivity).
  destruct (spec_set_inv 10240 [] a0 from_key (DBin me) U J0 Gk Gv HU Kf ltac:(intros q [])) as (a1 & E1 & J1 & H1 & L1 & _).
  assert (Sp : spec_set 10240 [] from_key (DBin me) = (np_data_ok, [(from_key, DBin me)])) by (unfold spec_set; cbn [put]; replace (bytes_needed [(from_key, DBin me)] <=? 10240) with true by (symmetry; apply Z.leb_le; exact Fit); reflexivity).
  rewrite Sp in E1, J1, H1. cbn [fst snd] in E1, J1, H1.
  destruct (merge_whole _ _ _ _ _ _ U J1 I0 HU H1 K0) as (a2 & E2 & J2 & L2). pose proof (merge_keys 10240 U _ _ K0 H1) as H2.
  destruct (merge_whole _ _ _ _ _ _ U J2 I3 HU H2 K3) as (a3 & E3 & J3 & L3). pose proof (merge_keys 10240 U _ _ K3 H2) as H3.
  destruct (merge_whole _ _ _ _ _ _ U J3 I4 HU H3 K4) as (a4 & E4 & J4 & L4).
  exists a4. split; [|split; [exact J4|congruence]].
  unfold message_attributes. change attr_size with 10240. rewrite E0. cbn [keep rbind]. change k_from with from_key. rewrite E1. cbn [keep rbind].
  unfold attr_user_msg, attr_identity_user_msg, attr_intent_user_msg. cbn [nth]. rewrite E2. cbn [keep rbind]. rewrite E3. cbn [keep rbind]. rewrite E4. reflexivity.
Qed.
Lemma inv_intact l a : Inv 10240 l a -> Z.of_nat (length a) = 10240 -> intact a /\ np_get_data_size a = (np_data_ok, bytes_needed l) /\ 21 <= bytes_needed l <= 10240.
Proof.
  intros I L. assert (E : np_get_data_size a = (np_data_ok, bytes_needed l)) by (unfold np_get_data_size; rewrite (inv_header _ _ _ I); reflexivity).
  assert (B : 21 <= bytes_needed l <= 10240).
  { split; [|exact (inv_fits _ _ _ I)]. unfold bytes_needed. assert (0 <= fold_right (fun e s => Z.of_nat (length (Data_Model.encode (fst e) (snd e))) + s) 0 l); [|lia]. clear. induction l as [|e l IH]; cbn [fold_right]; lia. }
  split; [|split; [exact E|exact B]]. split; [lia|]. exists (bytes_needed l). auto.
Qed.

(** ** The body *)
Definition two (data a : list Z) : list (op (V := tval)) := [Insert (UStr k_userdata) (VBin data); Insert (UStr k_attributes) (VBin a)].
Lemma two_stored data a : Z.of_nat (length data) <= 4294967295 -> Z.of_nat (length a) <= 4294967295 ->
  exists tree, vrun (two data a) = Ok tree /\ keys_of_kind Strings (two data a) /\ Z.of_nat (length (entries tree)) <= 32767 /\
    (forall u v, In (u, v) (entries tree) -> storable_key u /\ storable v) /\
    entry k_userdata (entries tree) = Some (VBin data) /\ entry k_attributes (entries tree) = Some (VBin a).
Proof.
  intros Ld La.
  assert (K : forall k, forallb (fun b => (1 <=? b) && (b <=? 255)) k = true -> (length k <=? 255)%nat = true -> negb (length k =? 1)%nat = true -> storable_key (UStr k)).
  { intros k K1 K2 K3. split; [intros X; rewrite X in K3; discriminate K3|]. split; [apply Nat.leb_le; exact K2|]. apply Forall_forall. intros x Hx. rewrite forallb_forall in K1. specialize (K1 x Hx). lia. }
  assert (Ku : storable_key (UStr k_userdata)) by (apply K; reflexivity). assert (Ka : storable_key (UStr k_attributes)) by (apply K; reflexivity).
  assert (Hk : keys_of_kind Strings (two data a)).
  { unfold two. constructor; [intros u E; injection E as <-; split; apply Ku|]. constructor; [intros u E; injection E as <-; split; apply Ka|]. constructor. }
  destruct (C18_map (VOther 0) stored_bytes val_bytes Strings _ Hk) as (tree & Er & _ & I & N & _). exists tree. split; [exact Er|]. split; [exact Hk|].
  assert (B : forall u v, bindings (two data a) no_bindings u = Some v -> (u = UStr k_userdata /\ v = VBin data) \/ (u = UStr k_attributes /\ v = VBin a)).
  { intros u v. unfold two. cbn [bindings change]. destruct (ukey_eq_dec u (UStr k_attributes)) as [->|].
    - unfold no_bindings. intros H. right. split; [reflexivity|]. revert H. destruct (ukey_eq_dec (UStr k_attributes) (UStr k_userdata)) as [E|_]; [discriminate E|congruence].
    - destruct (ukey_eq_dec u (UStr k_userdata)) as [->|]; unfold no_bindings; [intros H; left; split; congruence|discriminate]. }
  split.
  { assert (L : (length (entries tree) <= 2)%nat); [|lia]. rewrite <- (map_length fst (entries tree)). apply (NoDup_incl_length (l' := [UStr k_userdata; UStr k_attributes]) N).
    intros u Hu. apply in_map_iff in Hu as ([u' v] & E1 & Hu). cbn in E1. subst u'. apply I in Hu. destruct (B _ _ Hu) as [[-> _] | [-> _]]; cbn; auto. }
  split.
  { intros u v H. apply I in H. destruct (B _ _ H) as [[-> ->] | [-> ->]]; (split; [assumption|constructor; assumption]). }
  split; (rewrite (entry_bindings _ _ Hk Er); unfold two; cbn [bindings change]).
  - destruct (ukey_eq_dec (UStr k_userdata) (UStr k_attributes)) as [E|_]; [discriminate E|]. destruct (ukey_eq_dec (UStr k_userdata) (UStr k_userdata)) as [_|D]; [reflexivity|contradiction].
  - destruct (ukey_eq_dec (UStr k_attributes) (UStr k_attributes)) as [_|D]; [|contradiction]. destruct (ukey_eq_dec (UStr k_attributes) (UStr k_userdata)) as [E|_]; [discriminate E|reflexivity].
Qed.
Lemma from_read l a : (forall k, np_get_data a k = answer (lookup k l)) -> received_from a = sender_of (lookup from_key l).
Proof. intros G. unfold received_from. change k_from with from_key. rewrite G. unfold answer. cbn [rbind]. destruct (lookup from_key l) as [[b|i|i|s]|]; reflexivity. Qed.

(** the way of a message *)
Lemma sent_and_read me w0 w3 w4 cs junk data : length me = 32%nat -> caches_of w0 w3 w4 cs -> Z.of_nat (length junk) = 10240 ->
  exists h tree bs, message_body me cs junk data = Done h /\ vrun h = Ok tree /\ np_serializer_write_map tree = Some bs /\
    (forall rest, np_serializer_read_map (bs ++ rest) = Some (VTree Plain (entries tree), rest)) /\
    exists a, (forall k, np_get_data a k = answer (lookup k (sent_store me w0 w3 w4))) /\
      forall uuid subject, converted uuid subject (entries tree) =
        rbind (sender_of (lookup from_key (sent_store me w0 w3 w4))) (fun from => Done (Some (mkMsg uuid subject from (firstn (Z.to_nat (u32 (Z.of_nat (length data)))) data) a))).
Proof.
  intros Lm Hc Lj. destruct (attributes_made me w0 w3 w4 cs junk Lm Hc Lj) as (a & Ea & Ia & La). destruct (inv_intact _ _ Ia La) as (Int & Es & Hb).
  set (d := firstn (Z.to_nat (u32 (Z.of_nat (length data)))) data). set (n := bytes_needed (sent_store me w0 w3 w4)) in *.
  assert (Ld : Z.of_nat (length d) <= 4294967295). { unfold d. rewrite firstn_length. assert (0 <= u32 (Z.of_nat (length data)) < 4294967296) by (apply Z.mod_pos_bound; lia). lia. }
  set (e := firstn (Z.to_nat n) a). assert (Le : Z.of_nat (length e) = n) by (unfold e; rewrite firstn_length; lia).
  destruct (two_stored d e Ld ltac:(lia)) as (tree & Er & Hk & Hl & Hs & Hu & Ha).
  destruct (C50_tree_round_trip Strings (two d e) tree Hk Er Hl Hs) as (bs & Eb & R).
  exists (two d e), tree, bs. split.
  { unfold message_body. rewrite Ea. cbn [rbind]. rewrite Es. replace (0 <? n) with true by (symmetry; apply Z.ltb_lt; lia). replace (n <=? Z.of_nat (length a)) with true by (symmetry; apply Z.leb_le; lia). reflexivity. }
  split; [exact Er|]. split; [exact Eb|]. split; [exact R|].
  destruct (used_block a (repeat 0 (Z.to_nat 10240)) Int ltac:(apply repeat_length)) as (n' & En & _ & _ & _ & _ & _ & Go). rewrite Es in Go. cbn [snd] in Go.
  exists (over e (repeat 0 (Z.to_nat 10240))). assert (G : forall k, np_get_data (over e (repeat 0 (Z.to_nat 10240))) k = answer (lookup k (sent_store me w0 w3 w4))).
  { intros k. unfold e. rewrite Go. rewrite (get_inv _ _ _ k Ia). reflexivity. }
  split; [exact G|]. intros uuid subject. unfold converted. rewrite Hu, Ha. cbn [bin_of rbind received_attributes]. change attr_size with 10240.
  replace (Z.of_nat (length e) <=? 10240) with true by (symmetry; apply Z.leb_le; lia). cbn [rbind]. rewrite (from_read _ _ G). reflexivity.
Qed.

(** ** Contents *)
Lemma merge_other n k : forall ls l, ~ In k (map fst ls) -> lookup k (snd (spec_merge n ls l)) = lookup k l.
Proof.
  induction ls as [|[q v] ls IH]; intros l H; cbn [spec_merge]; [reflexivity|]. cbn [map fst In] in H. unfold spec_set. destruct (bytes_needed (put q v l) <=? n); cbn [snd]; [|reflexivity].
  rewrite IH by tauto. rewrite lookup_put. destruct (list_eq_dec Z.eq_dec q k); [tauto|reflexivity].
Qed.
Lemma needed_sizes l : bytes_needed l = 21 + sizes l. Proof. reflexivity. Qed.
Lemma sizes_put k v l : sizes (put k v l) <= Z.of_nat (length (Data_Model.encode k v)) + sizes l.
Proof.
  unfold sizes. induction l as [|[q w] l IH]; cbn [put fold_right fst snd]; [lia|]. destruct (list_eq_dec Z.eq_dec q k); cbn [fold_right fst snd]; [lia|].
  set (A := fold_right _ 0 (put k v l)) in *. lia.
Qed.
Lemma sizes_pos l : 0 <= sizes l.
Proof. unfold sizes. induction l as [|e l IH]; cbn [fold_right]; lia. Qed.
Lemma sizes_cons k v l : sizes ((k, v) :: l) = Z.of_nat (length (Data_Model.encode k v)) + sizes l. Proof. reflexivity. Qed.
Lemma merge_fits n k : forall ls l, NoDup (map fst ls) -> bytes_needed l + sizes ls <= n ->
  bytes_needed (snd (spec_merge n ls l)) <= bytes_needed l + sizes ls /\ lookup k (snd (spec_merge n ls l)) = match lookup k ls with Some v => Some v | None => lookup k l end.
Proof.
  induction ls as [|[q v] ls IH]; intros l N F; cbn [spec_merge]; [cbn; split; [lia|reflexivity]|].
  rewrite sizes_cons in *. pose proof (sizes_pos ls). pose proof (sizes_put q v l). rewrite !needed_sizes in *. unfold spec_set. rewrite needed_sizes.
  destruct (Z.leb_spec (21 + sizes (put q v l)) n); [|lia]. cbn [map fst] in N. inversion_clear N as [|? ? Hn N'].
  destruct (IH (put q v l) N' ltac:(rewrite needed_sizes; lia)) as [B E]. rewrite !needed_sizes in B. split; [lia|]. rewrite E. cbn [lookup]. rewrite lookup_put.
  destruct (list_eq_dec Z.eq_dec q k) as [->|]; [|reflexivity]. destruct (lookup k ls) eqn:L; [|reflexivity]. exfalso. apply Hn.
  destruct (in_dec (list_eq_dec Z.eq_dec) k (map fst ls)) as [H'|H']; [exact H'|]. apply lookup_none in H'. congruence.
Qed.
Lemma writes_nodup n ws : forall l, NoDup (map fst l) -> NoDup (map fst (snd (spec_writes n ws l))).
Proof.
  induction ws as [|[k v] ws IH]; intros l N; cbn [spec_writes]; [exact N|]. unfold spec_set. destruct (bytes_needed (put k v l) <=? n).
  - specialize (IH (put k v l) (put_keys k v l N)). destruct (spec_writes n ws (put k v l)). exact IH.
  - specialize (IH l N). destruct (spec_writes n ws l). exact IH.
Qed.
Lemma content_nodup ws : NoDup (map fst (content ws)). Proof. apply writes_nodup. constructor. Qed.
Lemma content_keys ws k : ~ In k (map fst ws) -> ~ In k (map fst (content ws)).
Proof. intros H Hk. apply keys_of_writes in Hk. rewrite app_nil_r in Hk. auto. Qed.

(** writes that can be made *)
Lemma written_exists ws : Forall good_entry ws -> few_keys ws -> exists b, written ws b.
Proof.
  intros G F. set (b0 := repeat 0 (Z.to_nat 10240)). assert (L0 : Z.of_nat (length b0) = 10240) by (unfold b0; rewrite repeat_length; reflexivity).
  destruct (init_step b0 10240 ltac:(lia) ltac:(lia)) as (b1 & E1 & I1 & L1 & _).
  destruct (writes_inv 10240 _ F ws [] b1 I1 G ltac:(intros q Hq; apply nodup_In; exact Hq) ltac:(intros q [])) as (b & E & _).
  exists b, b0, b1. eexists. split; [exact L0|]. split; [exact E1|exact E].
Qed.
Lemma fewer U ws : incl ws U -> few_keys U -> few_keys ws.
Proof.
  unfold few_keys. intros Hi H. assert (length (nodup (list_eq_dec Z.eq_dec) (map fst ws)) <= length (nodup (list_eq_dec Z.eq_dec) (map fst U)))%nat; [|lia].
  apply NoDup_incl_length; [apply NoDup_nodup|]. intros q Hq. apply nodup_In. apply nodup_In in Hq. apply in_map_iff in Hq as (e & <- & He). apply in_map. auto.
Qed.
Lemma caches_exist w0 w3 w4 : Forall good_entry (w0 ++ w3 ++ w4) -> few_keys ((from_key, DBin []) :: w0 ++ w3 ++ w4) -> exists cs, caches_of w0 w3 w4 cs.
Proof.
  intros G F. assert (W : forall ws, incl ws (w0 ++ w3 ++ w4) -> exists b, written ws b).
  { intros ws Hi. apply written_exists; [apply Forall_forall; intros e He; rewrite Forall_forall in G; apply G, Hi, He|]. eapply fewer; [|exact F]. intros e He. right. apply Hi. exact He. }
  destruct (W w0 ltac:(intros e He; apply in_or_app; auto)) as [b0 W0]. destruct (W w3 ltac:(intros e He; apply in_or_app; right; apply in_or_app; auto)) as [b3 W3].
  destruct (W w4 ltac:(intros e He; apply in_or_app; right; apply in_or_app; auto)) as [b4 W4].
  exists [b0; []; []; b3; b4; []]. exists b0, [], [], b3, b4, []. auto 8.
Qed.

(** ** The queue *)
Lemma jop_app os : forall s h o, jop_run s h (os ++ [o]) = obind (jop_run s h os) (fun '(s', h') => jop_step s' h' o).
Proof. induction os as [|a os IH]; intros s h o; cbn [app jop_run]; [cbn [obind]; destruct (jop_step s h o) as [[s' h']| |]; reflexivity|]. destruct (jop_step s h a) as [[s' h']| |]; cbn [obind]; [apply IH|reflexivity|reflexivity]. Qed.
Lemma filled j : j_periodic j = false -> forall k, (k <= 511)%nat -> exists os s h, jop_run (jq_init 512) ([], []) os = Ok (s, h) /\ hcount (l_heap (lane1 s)) = k.
Proof.
  intros Hj. induction k as [|k IH]; intros Hk; [exists [], (jq_init 512), ([], []); split; reflexivity|].
  destruct (IH ltac:(lia)) as (os & s & h & E & C). destruct (C09_submission_answer_exact 512 os s h j ltac:(lia) ltac:(lia) E) as (b & s' & Ei & Hb & _).
  assert (G : jq_inv s) by (destruct (jop_run_good os _ _ _ _ 512 (good_init 512 ltac:(lia)) E); assumption).
  exists (os ++ [JSubmit j]), s'. rewrite Hj in Hb. cbn [get_lane] in Hb. assert (b = true) by (destruct b; [reflexivity|]; destruct (proj1 Hb eq_refl); lia). subst b.
  eexists. split; [rewrite jop_app, E; cbn [obind jop_step]; rewrite Ei; reflexivity|].
  unfold jq_insert in Ei. rewrite Hj in Ei. cbn [get_lane set_lane] in Ei. destruct (lane_insert (lane1 s) j) as [[b l]| |] eqn:El; cbn [obind] in Ei; try discriminate.
  injection Ei as -> <-. cbn [lane1]. unfold lane_insert in El. destruct (Nat.leb JOBQUEUE_MAX_SIZE (hcount (l_heap (lane1 s)) + 1)); [discriminate|].
  destruct (heap_insert job_before (l_heap (lane1 s)) j) as [hp| |] eqn:Eh; cbn [obind] in El; try discriminate. destruct (heap_first hp); cbn [obind] in El; try discriminate. injection El as <-. cbn [l_heap].
  destruct (insert_ok job_before job_sw _ _ _ (proj1 (proj2 G)) Eh) as (_ & _ & Hc & _). lia.
Qed.

(** ** The key of the sender as an attribute *)
Lemma from_fits other : length other <> 24%nat -> Z.of_nat (length other) <= 10000 -> good_entry (from_key, DBin other) /\ bytes_needed [(from_key, DBin other)] <= 10240.
Proof.
  intros N L. assert (K : good_key from_key) by (split; [cbn; lia|]; split; [cbn; lia|]; repeat constructor; lia). assert (V : good_value (DBin other)) by (cbn; split; [assumption|lia]).
  split; [split; assumption|]. unfold bytes_needed. cbn [fold_right fst snd]. rewrite <- size_exact by assumption. change (object_size from_key (DBin other)) with (9 + (size_extra (Z.of_nat (length other)) + 1 + Z.of_nat (length other))).
  assert (size_extra (Z.of_nat (length other)) <= 8) by (unfold size_extra; repeat match goal with |- context [if ?b then _ else _] => destruct b end; lia). lia.
Qed.
Lemma set_from cs other : length other <> 24%nat -> Z.of_nat (length other) <= 10000 -> caches_of [] [] [] cs ->
  exists cs', set_ident_attr cs None 0 from_key other = Done (np_data_ok, None, cs') /\ caches_of [(from_key, DBin other)] [] [] cs'.
Proof.
  intros N L (b0 & b1 & b2 & b3 & b4 & b5 & -> & W0 & W3 & W4 & _ & _). destruct (from_fits other N L) as [G F].
  assert (HU : Z.of_nat (length [from_key]) <= 65535) by (cbn; lia).
  destruct (written_inv [] b0 [from_key] W0 ltac:(constructor) HU ltac:(intros q [])) as (I0 & _ & L0). change (content []) with (@nil (list Z * datum)) in I0.
  destruct (spec_set_inv 10240 [] b0 from_key (DBin other) [from_key] I0 (proj1 G) (proj2 G) HU ltac:(left; reflexivity) ltac:(intros q [])) as (b' & E & _).
  assert (Sp : spec_set 10240 [] from_key (DBin other) = (np_data_ok, [(from_key, DBin other)])) by (unfold spec_set; cbn [put]; replace (bytes_needed [(from_key, DBin other)] <=? 10240) with true by (symmetry; apply Z.leb_le; exact F); reflexivity).
  rewrite Sp in E. cbn [fst] in E. exists [b'; b1; b2; b3; b4; b5]. split.
  - unfold set_ident_attr. change (firstn 254 from_key) with from_key. cbn [rbind]. unfold set_cache. change (0 =? attr_none) with false. change (0 <? 0) with false. cbn [Z.to_nat nth_error]. cbv iota. rewrite E. reflexivity.
  - exists b', b1, b2, b3, b4, b5. split; [reflexivity|]. split; [|split; [exact W3|split; [exact W4|split; [constructor; [exact G|constructor]|unfold few_keys]]]].
    + destruct W0 as (x0 & x1 & rs & Lx & E1 & E2). cbn [writes] in E2. injection E2 as _ <-. exists x0, x1, [np_data_ok]. split; [exact Lx|]. split; [exact E1|]. cbn [writes]. rewrite E. reflexivity.
    + cbn [map fst app]. assert (length (nodup (list_eq_dec Z.eq_dec) [from_key; from_key]) <= length [from_key])%nat; [|cbn [length] in *; lia].
      apply NoDup_incl_length; [apply NoDup_nodup|]. intros q Hq. apply nodup_In in Hq. destruct Hq as [H|[H|[]]]; left; exact H.
Qed.
Lemma set_from_store me other : length me = 32%nat -> length other <> 24%nat -> Z.of_nat (length other) <= 10000 ->
  lookup from_key (sent_store me [(from_key, DBin other)] [] []) = Some (DBin other).
Proof.
  intros Lm N L. destruct (from_fits other N L) as [_ F]. unfold sent_store, content. cbn [spec_writes]. unfold spec_set at 1. cbn [put].
  replace (bytes_needed [(from_key, DBin other)] <=? 10240) with true by (symmetry; apply Z.leb_le; exact F). cbn [snd spec_merge]. unfold spec_set. cbn [put].
  destruct (list_eq_dec Z.eq_dec from_key from_key) as [_|D]; [|contradiction].
  replace (bytes_needed [(from_key, DBin other)] <=? 10240) with true by (symmetry; apply Z.leb_le; exact F). cbn [snd lookup].
  destruct (list_eq_dec Z.eq_dec from_key from_key) as [_|D]; [reflexivity|contradiction].
Qed.
