(** Proofs about reading and setting attributes. *)
From Verif Require Import Base Tree_Model Tree_Spec Cbor_Model Treeval_Model Treeval_Spec Wire_Model Data_Model Data_Spec Data_Proofs In_Model Deliver_Model Deliver_Spec Deliver_Proofs.
From Verif Require Import Attrget_Model Attrget_Spec.

Lemma delivered_get me w0 w3 w4 a : delivered me w0 w3 w4 a -> forall k, np_get_data a k = answer (lookup k (sent_store me w0 w3 w4)).
Proof.
  intros (cs & junk & data & h & tree & bs & rest & body & uuid & subject & from & d & Lm & Hc & Lj & E1 & E2 & E3 & E4 & E5).
  destruct (sent_and_read me w0 w3 w4 cs junk data Lm Hc Lj) as (h' & tree' & bs' & F1 & F2 & F3 & F4 & a' & G & F5).
  assert (h' = h) by congruence. subst h'. assert (tree' = tree) by congruence. subst tree'. assert (bs' = bs) by congruence. subst bs'.
  specialize (F4 rest). rewrite E4 in F4. injection F4 as ->. rewrite F5 in E5.
  destruct (sender_of (lookup from_key (sent_store me w0 w3 w4))); cbn [rbind] in E5; try discriminate E5. injection E5 as _ _ ->. exact G.
Qed.

Lemma delivered_exists me w0 w3 w4 cs : length me = 32%nat -> caches_of w0 w3 w4 cs -> Forall (fun e => fst e <> from_key) (w0 ++ w3 ++ w4) ->
  exists a, delivered me w0 w3 w4 a.
Proof.
  intros Lm Hc Hf. set (junk := repeat 0 (Z.to_nat 10240)). assert (Lj : Z.of_nat (length junk) = 10240) by (unfold junk; rewrite repeat_length; lia).
  destruct (sent_and_read me w0 w3 w4 cs junk [] Lm Hc Lj) as (h & tree & bs & F1 & F2 & F3 & F4 & a & G & F5). exists a.
  assert (L : lookup from_key (sent_store me w0 w3 w4) = Some (DBin me)).
  { assert (N : forall ws, incl ws (w0 ++ w3 ++ w4) -> ~ In from_key (map fst (content ws))).
    { intros ws Hi. apply content_keys. intros H. apply in_map_iff in H as (e & E & He). rewrite Forall_forall in Hf. exact (Hf e (Hi e He) E). }
    unfold sent_store. rewrite !merge_other; [reflexivity| | |]; apply N; intros e He; rewrite !in_app_iff; tauto. }
  exists cs, junk, [], h, tree, bs, [], (entries tree), [], [], me. eexists. split; [exact Lm|]. split; [exact Hc|]. split; [exact Lj|].
  split; [exact F1|]. split; [exact F2|]. split; [exact F3|]. split; [apply F4|]. rewrite F5, L. cbn [sender_of]. rewrite Lm. cbn [Nat.eqb rbind]. reflexivity.
Qed.

Lemma block_inv ws k b : block_of ws k b -> forall v, good_key k -> good_value v ->
  exists b', np_set_data b k v = Done (fst (spec_set 10240 (content ws) k v), b') /\
    (forall q, np_get_data b' q = Done (match lookup q (snd (spec_set 10240 (content ws) k v)) with Some v => (np_data_ok, Some v) | None => (np_key_not_found, None) end)).
Proof.
  intros (W & G & F) v Gk Gv. set (U := nodup (list_eq_dec Z.eq_dec) (map fst ((k, DBin []) :: ws))) in *.
  assert (HU : Z.of_nat (length U) <= 65535) by exact F.
  assert (Hi : incl (map fst ws) U) by (intros q Hq; apply nodup_In; right; exact Hq).
  assert (Hk : In k U) by (apply nodup_In; left; reflexivity).
  destruct (written_inv ws b U W G HU Hi) as (I & Hc & _).
  destruct (spec_set_inv 10240 (content ws) b k v U I Gk Gv HU Hk Hc) as (b' & E & I' & _). exists b'. split; [exact E|]. intros q. exact (get_inv _ _ _ q I').
Qed.
Lemma block_get ws k b : block_of ws k b -> forall q, np_get_data b q = Done (match lookup q (content ws) with Some v => (np_data_ok, Some v) | None => (np_key_not_found, None) end).
Proof.
  intros (W & G & F) q. set (U := nodup (list_eq_dec Z.eq_dec) (map fst ((k, DBin []) :: ws))) in *.
  assert (HU : Z.of_nat (length U) <= 65535) by exact F.
  assert (Hi : incl (map fst ws) U) by (intros x Hx; apply nodup_In; right; exact Hx).
  destruct (written_inv ws b U W G HU Hi) as (I & _). exact (get_inv _ _ _ q I).
Qed.

Lemma entry_size k b : good_key k -> good_value (DBin b) -> Z.of_nat (length (Data_Model.encode k (DBin b))) <= Z.of_nat (length k) + Z.of_nat (length b) + 20.
Proof.
  intros Gk Gv. rewrite <- size_exact by assumption. unfold object_size, size_extra.
  repeat match goal with |- context [if ?c then _ else _] => destruct c end; lia.
Qed.
Lemma from_good me : length me = 32%nat -> good_key from_key /\ good_value (DBin me).
Proof. intros L. split; [split; [cbn; lia|]; split; [cbn; lia|]; repeat constructor; lia|cbn; rewrite L; lia]. Qed.

(** one attribute set for messages on a node that had none *)
Lemma set_user cs k b : good_key k -> good_value (DBin b) -> Z.of_nat (length b) <= 9000 -> caches_of [] [] [] cs -> k <> from_key ->
  exists cs', set_ident_attr cs None 0 k b = Done (np_data_ok, None, cs') /\ caches_of [(k, DBin b)] [] [] cs' /\
    forall me, length me = 32%nat -> lookup k (sent_store me [(k, DBin b)] [] []) = Some (DBin b).
Proof.
  intros Gk Gv L (b0 & b1 & b2 & b3 & b4 & b5 & -> & W0 & W3 & W4 & _ & _) Nf.
  pose proof (entry_size k b Gk Gv) as Sz. assert (Lk : Z.of_nat (length k) <= 254) by (destruct Gk as [H _]; lia).
  assert (F : bytes_needed [(k, DBin b)] <= 10240) by (unfold bytes_needed; cbn [fold_right fst snd]; lia).
  destruct (block_inv [] k b0) with (v := DBin b) as (b' & E & _); [|exact Gk|exact Gv|].
  { split; [exact W0|]. split; [constructor|]. unfold few_keys. cbn [map fst nodup]. cbn. lia. }
  assert (Sp : spec_set 10240 [] k (DBin b) = (np_data_ok, [(k, DBin b)])) by (unfold spec_set; cbn [put]; rewrite (proj2 (Z.leb_le _ _) F); reflexivity).
  change (content []) with (@nil (list Z * datum)) in E. rewrite Sp in E. cbn [fst] in E. exists [b'; b1; b2; b3; b4; b5]. split; [|split].
  - unfold set_ident_attr. rewrite firstn_all2 by lia. cbn [rbind]. unfold set_cache. change (0 =? attr_none) with false. change (0 <? 0) with false. cbn [Z.to_nat nth_error]. cbv iota. rewrite E. reflexivity.
  - exists b', b1, b2, b3, b4, b5. split; [reflexivity|]. split; [|split; [exact W3|split; [exact W4|split; [constructor; [split; assumption|constructor]|unfold few_keys]]]].
    + destruct W0 as (x0 & x1 & rs & Lx & E1 & E2). cbn [writes] in E2. injection E2 as _ <-. exists x0, x1, [np_data_ok]. split; [exact Lx|]. split; [exact E1|]. cbn [writes]. rewrite E. reflexivity.
    + cbn [map fst app]. assert (length (nodup (list_eq_dec Z.eq_dec) [from_key; k]) <= length [from_key; k])%nat; [|cbn [length] in *; lia].
      apply NoDup_incl_length; [apply NoDup_nodup|]. intros q Hq. apply nodup_In in Hq. exact Hq.
  - intros me Lm. destruct (from_good me Lm) as [Gf Gm]. pose proof (entry_size from_key me Gf Gm) as Sf. rewrite Lm in Sf. change (length from_key) with 8%nat in Sf.
    unfold sent_store, content. cbn [spec_writes]. rewrite Sp. cbn [snd spec_merge]. unfold spec_set. cbn [put].
    destruct (list_eq_dec Z.eq_dec from_key k) as [D|_]; [congruence|].
    replace (bytes_needed [(from_key, DBin me); (k, DBin b)] <=? 10240) with true by (symmetry; apply Z.leb_le; unfold bytes_needed; cbn [fold_right fst snd]; lia).
    cbn [snd spec_merge lookup]. destruct (list_eq_dec Z.eq_dec from_key k) as [D|_]; [congruence|].
    destruct (list_eq_dec Z.eq_dec k k) as [_|D]; [reflexivity|contradiction].
Qed.
