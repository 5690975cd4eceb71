(** C103 (reading attributes of messages and tokens), C104 (setting attributes). *)
From Verif Require Import Base Tree_Model Tree_Spec Cbor_Model Treeval_Model Treeval_Spec Wire_Model Data_Model Data_Spec Data_Proofs In_Model Deliver_Model Deliver_Spec Deliver_Proofs.
From Verif Require Import Attrget_Model Attrget_Spec Attrget_Proofs.

(** ** C103 *)
(** A receiver that reads a binary attribute of a message into memory that is large enough gets the bytes the sender set, their number, and
    nothing behind them changes.
    Missing: memory that is too small, attributes that are numbers, calls without a configuration (refuted below). *)
Theorem C103_read_partial : forall me w0 w3 w4 a k b n buf,
  delivered me w0 w3 w4 a -> lookup k (sent_store me w0 w3 w4) = Some (DBin b) -> (length b <= length buf)%nat ->
  get_msg_attr a k (Some n) (Some (Some buf)) = Done (np_data_ok, Z.of_nat (length b), b ++ skipn (length b) buf).
Proof.
  intros me w0 w3 w4 a k b n buf D L Hb. unfold get_msg_attr. rewrite (delivered_get _ _ _ _ _ D k), L. unfold answer. cbn [rbind].
  rewrite (proj2 (Nat.leb_le _ _) Hb). reflexivity.
Qed.
(** An attribute that is not there is reported, and the memory is as before, if the configuration given says that there are no bytes.
    Missing: any other configuration (refuted below). *)
Theorem C103_absent_partial : forall me w0 w3 w4 a k buf,
  delivered me w0 w3 w4 a -> lookup k (sent_store me w0 w3 w4) = None ->
  get_msg_attr a k (Some 0) (Some (Some buf)) = Done (np_key_not_found, 0, buf).
Proof.
  intros me w0 w3 w4 a k buf D L. unfold get_msg_attr. rewrite (delivered_get _ _ _ _ _ D k), L. reflexivity.
Qed.
(** the theorems apply: two attributes, one key not used *)
Definition ex_k : list Z := [107; 101; 121].
Example C103_ex : exists a, delivered (repeat 7 32) [(ex_k, DBin [1; 2])] [([97], DBin [3])] [] a /\
  lookup ex_k (sent_store (repeat 7 32) [(ex_k, DBin [1; 2])] [([97], DBin [3])] []) = Some (DBin [1; 2]) /\
  lookup [98] (sent_store (repeat 7 32) [(ex_k, DBin [1; 2])] [([97], DBin [3])] []) = None.
Proof.
  destruct (caches_exist [(ex_k, DBin [1; 2])] [([97], DBin [3])] []) as [cs H].
  - repeat constructor; cbn; lia.
  - unfold few_keys. vm_compute. discriminate.
  - destruct (delivered_exists (repeat 7 32) _ _ _ cs eq_refl H) as [a D]; [repeat constructor; discriminate|]. exists a. split; [exact D|]. split; vm_compute; reflexivity.
Qed.

(** C103 fails: whatever the size of the memory of the receiver (up to 8000 bytes) and whatever attribute it reads, any node can set
    this attribute so that reading it writes behind the memory. *)
Theorem C103_overflow_refuted : forall me k conf buf cs, length me = 32%nat -> good_key k -> k <> from_key -> Z.of_nat (length buf) <= 8000 -> caches_of [] [] [] cs ->
  exists b cs', set_ident_attr cs None 0 k b = Done (np_data_ok, None, cs') /\ caches_of [(k, DBin b)] [] [] cs' /\
    (exists a, delivered me [(k, DBin b)] [] [] a) /\
    forall a, delivered me [(k, DBin b)] [] [] a -> get_msg_attr a k conf (Some (Some buf)) = Undef.
Proof.
  intros me k conf buf cs Lm Gk Nf Lb Hc. set (b := repeat 1 (length buf + 25)%nat). assert (L : length b = (length buf + 25)%nat) by (unfold b; apply repeat_length).
  assert (Gv : good_value (DBin b)) by (cbn - [b]; rewrite L; lia). destruct (set_user cs k b Gk Gv ltac:(rewrite L; lia) Hc Nf) as (cs' & E & Hc' & S).
  exists b, cs'. split; [exact E|]. split; [exact Hc'|]. split; [apply (delivered_exists me _ _ _ cs' Lm Hc'); constructor; [exact Nf|constructor]|].
  intros a D. unfold get_msg_attr. rewrite (delivered_get _ _ _ _ _ D k), (S me Lm). unfold answer. cbn [rbind]. destruct conf as [n|]; [|reflexivity].
  replace (Nat.leb (length b) (length buf)) with false by (symmetry; apply Nat.leb_gt; lia). reflexivity.
Qed.
Example C103_overflow_ex : exists cs, caches_of [] [] [] cs.
Proof. apply caches_exist; [constructor|]. unfold few_keys. cbn. lia. Qed.
(** C103 fails: a configuration that was used before (it has the size of the attribute read last) makes reading an attribute that is not
    there undefined, *)
Theorem C103_absent_refuted : forall me w0 w3 w4 a k n buf, delivered me w0 w3 w4 a -> lookup k (sent_store me w0 w3 w4) = None -> n <> 0 ->
  get_msg_attr a k (Some n) (Some (Some buf)) = Undef.
Proof.
  intros me w0 w3 w4 a k n buf D L N. unfold get_msg_attr. rewrite (delivered_get _ _ _ _ _ D k), L. unfold answer. cbn [rbind].
  rewrite (proj2 (Z.eqb_neq _ _) N). reflexivity.
Qed.
(** so two reads one after the other with the same configuration are enough; *)
Theorem C103_two_reads_refuted : forall me w0 w3 w4 a k q b n buf, delivered me w0 w3 w4 a ->
  lookup k (sent_store me w0 w3 w4) = Some (DBin b) -> b <> [] -> (length b <= length buf)%nat -> lookup q (sent_store me w0 w3 w4) = None ->
  rbind (get_msg_attr a k (Some n) (Some (Some buf))) (fun '(_, n, buf) => get_msg_attr a q (Some n) (Some (Some buf))) = Undef.
Proof.
  intros me w0 w3 w4 a k q b n buf D L Nb Hb Lq. rewrite (C103_read_partial _ _ _ _ _ k b n buf D L Hb). cbn [rbind].
  apply (C103_absent_refuted _ _ _ _ _ q _ _ D Lq). destruct b; [contradiction|cbn [length]; lia].
Qed.
(** a call without a configuration is undefined whether or not the attribute is there; without memory for the answer the process ends *)
Theorem C103_no_config_refuted : forall me w0 w3 w4 a k buf, delivered me w0 w3 w4 a -> get_msg_attr a k None (Some (Some buf)) = Undef.
Proof. intros me w0 w3 w4 a k buf D. unfold get_msg_attr. rewrite (delivered_get _ _ _ _ _ D k). unfold answer. cbn [rbind]. destruct (lookup k _); reflexivity. Qed.
Theorem C103_no_memory_refuted : forall a k conf, get_msg_attr a k conf (Some None) = Aborts /\ get_msg_attr a k conf None = Undef.
Proof. intros. split; reflexivity. Qed.
(** a number that a sender put there is used as an address, in messages and in tokens (where the answer is success) *)
Theorem C103_number_refuted : forall ws k b v conf buf, block_of ws k b -> lookup k (content ws) = Some v ->
  (exists z, v = DInt z \/ v = DUint z) ->
  get_msg_attr b k conf (Some (Some buf)) = Undef /\ get_token_attr b k true = Done (np_data_ok, Some Wild).
Proof.
  intros ws k b v conf buf B L (z & Hv). unfold get_msg_attr, get_token_attr. rewrite (block_get ws k b B k), L. cbn [rbind].
  destruct conf; destruct Hv as [-> | ->]; split; reflexivity.
Qed.
Example C103_number_ex : exists b, block_of [(ex_k, DInt 5)] ex_k b /\ lookup ex_k (content [(ex_k, DInt 5)]) = Some (DInt 5).
Proof.
  destruct (written_exists [(ex_k, DInt 5)]) as [b W]; [repeat constructor; cbn; lia|unfold few_keys; cbn; lia|].
  exists b. split; [split; [exact W|split; [repeat constructor; cbn; lia|unfold few_keys; vm_compute; discriminate]]|vm_compute; reflexivity].
Qed.

(** Tokens: every attribute written is read back, also without a configuration; one that is not there is reported.
    Missing: numbers (refuted above). *)
Theorem C103_token_partial : forall ws k b q, block_of ws k b ->
  (forall x, lookup q (content ws) = Some (DBin x) -> get_token_attr b q true = Done (np_data_ok, Some (To x))) /\
  (lookup q (content ws) = None -> exists p, get_token_attr b q true = Done (np_key_not_found, p)).
Proof.
  intros ws k b q B. unfold get_token_attr. rewrite (block_get ws k b B q). cbn [rbind]. split; [intros x ->; reflexivity|intros ->; eexists; reflexivity].
Qed.

(** ** C104 *)
(** An attribute set for a token: without inheritance the answer is success exactly if there is room, then it can be read, and every other
    attribute is as before; if there is none, nothing changed. *)
Theorem C104_token : forall cs ws k b bin, block_of ws k b -> good_key k -> good_value (DBin bin) ->
  exists r b', set_ident_attr cs (Some b) (-1) k bin = Done (r, Some b', cs) /\
    ((r = np_data_ok <-> room_for k bin ws) /\ (r <> np_data_ok -> r = np_insufficient_memory)) /\
    (r = np_data_ok -> get_token_attr b' k true = Done (np_data_ok, Some (To bin))) /\
    (forall q out, q <> k \/ r <> np_data_ok -> get_token_attr b' q out = get_token_attr b q out).
Proof.
  intros cs ws k b bin B Gk Gv. destruct (block_inv ws k b B (DBin bin) Gk Gv) as (b' & E & G). pose proof (block_get ws k b B) as G0.
  exists (fst (spec_set 10240 (content ws) k (DBin bin))), b'. split.
  { unfold set_ident_attr. rewrite firstn_all2 by (destruct Gk; lia). rewrite E. reflexivity. }
  unfold room_for. unfold spec_set in *. destruct (Z.leb_spec (bytes_needed (put k (DBin bin) (content ws))) 10240) as [H|H]; cbn [fst snd] in *.
  - split; [split; [tauto|congruence]|]. split; [intros _; unfold get_token_attr; rewrite G, lookup_put; destruct (list_eq_dec Z.eq_dec k k); [reflexivity|contradiction]|].
    intros q out [N|N]; [|congruence]. unfold get_token_attr. rewrite G, G0, lookup_put. destruct (list_eq_dec Z.eq_dec k q); [congruence|reflexivity].
  - split; [split; [split; [discriminate|lia]|reflexivity]|]. split; [discriminate|]. intros q out _. unfold get_token_attr. rewrite G, G0. reflexivity.
Qed.
(** C104 fails with inheritance: a token without room for the attribute is left as it is, and the answer is success because the node's own
    store had room; *)
Theorem C104_token_refuted : forall cs i c ws wc k b bin, block_of ws k b -> ~ room_for k bin ws -> good_key k -> good_value (DBin bin) ->
  nth_error cs i = Some c -> block_of wc k c -> room_for k bin wc ->
  exists b' cs', set_ident_attr cs (Some b) (Z.of_nat i) k bin = Done (np_data_ok, Some b', cs') /\
    forall q out, get_token_attr b' q out = get_token_attr b q out.
Proof.
  intros cs i c ws wc k b bin B R Gk Gv Hi Bc Rc. destruct (block_inv ws k b B (DBin bin) Gk Gv) as (b' & E & G). destruct (block_inv wc k c Bc (DBin bin) Gk Gv) as (c' & Ec & _).
  unfold room_for in *. unfold spec_set in *. rewrite (proj2 (Z.leb_gt _ _)) in E, G by lia. rewrite (proj2 (Z.leb_le _ _) Rc) in Ec. cbn [fst snd] in *.
  exists b'. eexists. split.
  - unfold set_ident_attr. rewrite firstn_all2 by (destruct Gk; lia). rewrite E. cbn [rbind]. unfold set_cache. replace (Z.of_nat i =? attr_none) with false by (symmetry; apply Z.eqb_neq; unfold attr_none; lia).
    replace (Z.of_nat i <? 0) with false by (symmetry; apply Z.ltb_ge; lia). rewrite Nat2Z.id, Hi, Ec. reflexivity.
  - intros q out. unfold get_token_attr. rewrite G, (block_get ws k b B q). reflexivity.
Qed.
(** An attribute set for a channel, both sides configured and with room: success, and both sides have it, other attributes are as before.
    Missing: one side without room (refuted below). *)
Theorem C104_channel_partial : forall cs wi wo k bi bo bin, block_of wi k bi -> block_of wo k bo -> good_key k -> good_value (DBin bin) ->
  room_for k bin wi -> room_for k bin wo ->
  exists bi' bo', set_mxp_attr cs (Some bi) (Some bo) (-1) k bin = Done (np_data_ok, Some bi', Some bo', cs) /\
    (forall q, np_get_data bi' q = if list_eq_dec Z.eq_dec k q then Done (np_data_ok, Some (DBin bin)) else np_get_data bi q) /\
    (forall q, np_get_data bo' q = if list_eq_dec Z.eq_dec k q then Done (np_data_ok, Some (DBin bin)) else np_get_data bo q).
Proof.
  intros cs wi wo k bi bo bin Bi Bo Gk Gv Ri Ro. destruct (block_inv wi k bi Bi (DBin bin) Gk Gv) as (bi' & Ei & Gi). destruct (block_inv wo k bo Bo (DBin bin) Gk Gv) as (bo' & Eo & Go).
  unfold room_for in *. unfold spec_set in *. rewrite (proj2 (Z.leb_le _ _) Ri) in Ei, Gi. rewrite (proj2 (Z.leb_le _ _) Ro) in Eo, Go. cbn [fst snd] in *.
  exists bi', bo'. split; [|split].
  - unfold set_mxp_attr. rewrite firstn_all2 by (destruct Gk; lia). cbn [set_side]. rewrite Ei. cbn [rbind]. rewrite Eo. reflexivity.
  - intros q. rewrite Gi, lookup_put, (block_get wi k bi Bi q). destruct (list_eq_dec Z.eq_dec k q); reflexivity.
  - intros q. rewrite Go, lookup_put, (block_get wo k bo Bo q). destruct (list_eq_dec Z.eq_dec k q); reflexivity.
Qed.
(** one side only: the answer is that of this side; no side: the call is refused *)
Theorem C104_one_side : forall cs w k b bin, block_of w k b -> good_key k -> good_value (DBin bin) ->
  exists r b', set_mxp_attr cs (Some b) None (-1) k bin = Done (r, Some b', None, cs) /\ set_mxp_attr cs None (Some b) (-1) k bin = Done (r, None, Some b', cs) /\
    (r = np_data_ok <-> room_for k bin w) /\
    (forall q, np_get_data b' q = if list_eq_dec Z.eq_dec k q then (if bytes_needed (put k (DBin bin) (content w)) <=? 10240 then Done (np_data_ok, Some (DBin bin)) else np_get_data b q) else np_get_data b q).
Proof.
  intros cs w k b bin B Gk Gv. destruct (block_inv w k b B (DBin bin) Gk Gv) as (b' & E & G). exists (fst (spec_set 10240 (content w) k (DBin bin))), b'.
  assert (Kf : firstn 254 k = k) by (apply firstn_all2; destruct Gk; lia).
  split; [unfold set_mxp_attr; rewrite Kf; cbn [set_side]; rewrite E; reflexivity|]. split; [unfold set_mxp_attr; rewrite Kf; cbn [set_side rbind]; rewrite E; reflexivity|].
  unfold room_for, spec_set in *. destruct (Z.leb_spec (bytes_needed (put k (DBin bin) (content w))) 10240) as [H|H]; cbn [fst snd] in *.
  - split; [tauto|]. intros q. rewrite G, lookup_put, (block_get w k b B q). destruct (list_eq_dec Z.eq_dec k q); reflexivity.
  - split; [split; [discriminate|lia]|]. intros q. rewrite G, (block_get w k b B q). destruct (list_eq_dec Z.eq_dec k q); reflexivity.
Qed.
Theorem C104_no_channel : forall cs k bin, set_mxp_attr cs None None (-1) k bin = Done (np_invalid_arguments, None, None, cs).
Proof. reflexivity. Qed.
(** C104 fails: no room on the receiving side: the answer is success, the receiving side does not have the attribute; and for a subject that
    does not exist the answer is success if the node's own store is named, although the attribute then goes to every channel *)
Theorem C104_channel_refuted : forall cs wi wo k bi bo bin, block_of wi k bi -> block_of wo k bo -> good_key k -> good_value (DBin bin) ->
  ~ room_for k bin wi -> room_for k bin wo ->
  exists bi' bo', set_mxp_attr cs (Some bi) (Some bo) (-1) k bin = Done (np_data_ok, Some bi', Some bo', cs) /\ forall q, np_get_data bi' q = np_get_data bi q.
Proof.
  intros cs wi wo k bi bo bin Bi Bo Gk Gv Ri Ro. destruct (block_inv wi k bi Bi (DBin bin) Gk Gv) as (bi' & Ei & Gi). destruct (block_inv wo k bo Bo (DBin bin) Gk Gv) as (bo' & Eo & Go).
  unfold room_for in *. unfold spec_set in *. rewrite (proj2 (Z.leb_gt _ _)) in Ei, Gi by lia. rewrite (proj2 (Z.leb_le _ _) Ro) in Eo, Go. cbn [fst snd] in *.
  exists bi', bo'. split.
  - unfold set_mxp_attr. rewrite firstn_all2 by (destruct Gk; lia). cbn [set_side]. rewrite Ei. cbn [rbind]. rewrite Eo. reflexivity.
  - intros q. rewrite Gi, (block_get wi k bi Bi q). reflexivity.
Qed.
Theorem C104_no_channel_refuted : forall cs i c wc k bin, nth_error cs i = Some c -> block_of wc k c -> good_key k -> good_value (DBin bin) -> room_for k bin wc ->
  exists cs' c', set_mxp_attr cs None None (Z.of_nat i) k bin = Done (np_data_ok, None, None, cs') /\ nth_error cs' i = Some c' /\ np_get_data c' k = Done (np_data_ok, Some (DBin bin)).
Proof.
  intros cs i c wc k bin Hi Bc Gk Gv Rc. destruct (block_inv wc k c Bc (DBin bin) Gk Gv) as (c' & Ec & Gc). unfold room_for, spec_set in *. rewrite (proj2 (Z.leb_le _ _) Rc) in Ec, Gc. cbn [fst snd] in *.
  exists (upd cs i c'), c'. split; [|split].
  - unfold set_mxp_attr. rewrite firstn_all2 by (destruct Gk; lia). cbn [set_side rbind]. unfold set_cache. replace (Z.of_nat i =? attr_none) with false by (symmetry; apply Z.eqb_neq; unfold attr_none; lia).
    replace (Z.of_nat i <? 0) with false by (symmetry; apply Z.ltb_ge; lia). rewrite Nat2Z.id, Hi, Ec. reflexivity.
  - clear -Hi. revert i Hi. induction cs as [|x cs IH]; intros [|i] H; cbn in *; try discriminate; [reflexivity|apply IH; exact H].
  - rewrite Gc, lookup_put. destruct (list_eq_dec Z.eq_dec k k); [reflexivity|contradiction].
Qed.
(** the theorems apply: a block without room and one with *)
Definition ex_big : list Z := repeat 1 5200.
Example C104_ex : exists b c, block_of [([97], DBin ex_big)] [98] b /\ ~ room_for [98] ex_big [([97], DBin ex_big)] /\ good_key [98] /\ good_value (DBin ex_big) /\
  block_of [] [98] c /\ room_for [98] ex_big [].
Proof.
  assert (Lb : Z.of_nat (length ex_big) = 5200) by (unfold ex_big; rewrite repeat_length; reflexivity).
  assert (Ga : good_key [97]) by (repeat split; cbn; try lia; repeat constructor; lia). assert (Gb : good_key [98]) by (repeat split; cbn; try lia; repeat constructor; lia).
  assert (Gv : good_value (DBin ex_big)) by (cbn - [ex_big]; lia).
  assert (Sa : Z.of_nat (length (Data_Model.encode [97] (DBin ex_big))) = 5205) by (rewrite <- size_exact by assumption; unfold object_size; rewrite Lb; reflexivity).
  assert (Sb : Z.of_nat (length (Data_Model.encode [98] (DBin ex_big))) = 5205) by (rewrite <- size_exact by assumption; unfold object_size; rewrite Lb; reflexivity).
  destruct (written_exists [([97], DBin ex_big)]) as [b W]; [constructor; [split; assumption|constructor]|unfold few_keys; cbn; lia|].
  destruct (written_exists []) as [c Wc]; [constructor|unfold few_keys; cbn; lia|].
  assert (Ct : content [([97], DBin ex_big)] = [([97], DBin ex_big)]).
  { unfold content. cbn [spec_writes]. unfold spec_set. cbn [put]. replace (bytes_needed [([97], DBin ex_big)] <=? 10240) with true; [reflexivity|]. symmetry. apply Z.leb_le. unfold bytes_needed. cbn [fold_right fst snd]. lia. }
  exists b, c. split; [split; [exact W|split; [constructor; [split; assumption|constructor]|unfold few_keys; cbn; lia]]|].
  split; [|split; [exact Gb|split; [exact Gv|split; [split; [exact Wc|split; [constructor|unfold few_keys; cbn; lia]]|]]]].
  - unfold room_for. rewrite Ct. cbn [put]. destruct (list_eq_dec Z.eq_dec [97] [98]); [discriminate|]. unfold bytes_needed. cbn [fold_right fst snd]. lia.
  - unfold room_for. change (content []) with (@nil (list Z * datum)). cbn [put]. unfold bytes_needed. cbn [fold_right fst snd]. lia.
Qed.

Print Assumptions C103_read_partial.
Print Assumptions C103_absent_partial.
Print Assumptions C103_overflow_refuted.
Print Assumptions C103_absent_refuted.
Print Assumptions C103_two_reads_refuted.
Print Assumptions C103_no_config_refuted.
Print Assumptions C103_no_memory_refuted.
Print Assumptions C103_number_refuted.
Print Assumptions C103_token_partial.
Print Assumptions C104_token.
Print Assumptions C104_token_refuted.
Print Assumptions C104_channel_partial.
Print Assumptions C104_one_side.
Print Assumptions C104_no_channel.
Print Assumptions C104_channel_refuted.
Print Assumptions C104_no_channel_refuted.
