(** C19: the calculated sizes cover the encoding.  C50: trees survive serialisation. *)
From Verif Require Import Base Dhkey_Model Rbtree_Model Tree_Model Tree_Spec Tree_Proofs Tree_Props
  Cbor_Model Cbor_Proofs Treeval_Model Treeval_Spec Treeval_Proofs.

(** ** C19 *)
(** Every value of a supported type, however deeply nested, needs at most the calculated number of bytes. *)
Theorem C19_value_size : forall v bs, sized v -> write v = Some bs -> Z.of_nat (length bs) <= val_bytes v.
Proof. intros v bs S E. apply val_size_ok; assumption. Qed.

Lemma sum_pos : forall l, 0 <= sum_sizes (fun e => key_bytes (fst e) + val_bytes (snd e)) l.
Proof.
  induction l as [|[k v] l IH]; unfold sum_sizes in *; cbn [fold_right fst snd]; [lia|].
  pose proof (key_bytes_pos k). pose proof (val_bytes_pos v). lia.
Qed.

(** The same for a tree and the size it keeps account of over any history of operations: a buffer of that size is large
    enough for np_serializer_write_map. *)
Theorem C19_tree_size : forall K h t bs, keys_of_kind K h -> vrun h = Ok t ->
  (forall u v, In (u, v) (entries t) -> sized_key u /\ sized v) ->
  Z.of_nat (length (entries t)) + val_bytes (VTree Plain (entries t)) < 18446744073709551616 ->
  np_serializer_write_map t = Some bs -> Z.of_nat (length bs) <= np_tree_get_byte_size t.
Proof.
  intros K h t bs Hk Hr Hs Hb E. assert (S : sized (VTree Plain (entries t))) by (constructor; exact Hs).
  pose proof (val_size_ok _ S bs E) as L. cbn [val_bytes] in *.
  destruct (C18_map (VOther 0) stored_bytes val_bytes K h Hk) as (t' & Er & _ & _ & _ & Ec & Eb).
  unfold vrun in Hr. rewrite Hr in Er. injection Er as <-. unfold np_tree_get_byte_size. rewrite Ec, Eb.
  assert (Es : fold_right (fun e s => stored_bytes (stored_key (fst e)) + val_bytes (snd e) + s) 0 (entries t)
               = sum_sizes (fun e => key_bytes (fst e) + val_bytes (snd e)) (entries t)).
  { pose proof (vrun_inv K h t Hk Hr) as I. pose proof (inv_stored _ _ _ _ _ I) as F. unfold entries.
    induction (elements (root t)) as [|[k v] l IH]; [reflexivity|]. inversion F as [|? ? (u & Hu & Ek) F']; subst.
    cbn in Ek. subst k. unfold sum_sizes in *. cbn [map fold_right fst snd] in *. rewrite IH by exact F'.
    rewrite (stored_back K u Hu). unfold stored_bytes. rewrite (stored_back K u Hu). reflexivity. }
  rewrite Es. set (s := sum_sizes _ _) in *.
  assert (0 <= s).
  { apply sum_pos. }
  pose proof (extra64_pos (Z.of_nat (length (entries t)))).
  unfold u64. rewrite !Z.mod_small by lia. lia.
Qed.

Example C19_ex : exists v bs, sized v /\ write v = Some bs /\ Z.of_nat (length bs) = 22 /\ val_bytes v = 22.
Proof.
  exists (VTree Plain [(UStr [105; 100], VUint 300); (UStr [107; 101; 121], VStr [97; 98; 99; 100])]). eexists.
  split; [|split; [vm_compute; reflexivity|split; vm_compute; reflexivity]].
  constructor. intros u v [H|[H|[]]]; injection H as <- <-; (split; [constructor|constructor; lia]).
Qed.

(** An unsigned int from 32768 on needs six bytes, four are calculated (np_treeval.c:775). *)
Theorem C19_uint_refuted : exists z bs, 0 <= z <= 65535 /\ write (VUint z) = Some bs /\ val_bytes (VUint z) < Z.of_nat (length bs).
Proof. exists 40000. eexists. split; [lia|]. split; [vm_compute; reflexivity|]. vm_compute. reflexivity. Qed.
(** So does a hash of 256 bytes or more. *)
Theorem C19_hash_refuted : exists b bs, write (VHash b) = Some bs /\ val_bytes (VHash b) < Z.of_nat (length bs).
Proof. exists (repeat 0 256). eexists. split; [vm_compute; reflexivity|]. vm_compute. reflexivity. Qed.

(** ** C50 *)
(** A value is read back exactly as written, and the following bytes are left alone. *)
Theorem C50_value_round_trip : forall v, storable v -> exists bs, write v = Some bs /\
  forall rest, read (S (length (bs ++ rest))) (bs ++ rest) = Some (v, rest).
Proof.
  intros v S. destruct (value_rt v S) as (bs & E & R). exists bs. split; [exact E|]. intros rest. apply R. rewrite app_length. lia.
Qed.

(** A tree that was built by any history, with keys of one kind and values that can be stored: what np_serializer_read_map
    makes of the output of np_serializer_write_map has the same entries. *)
Theorem C50_tree_round_trip : forall K h t, keys_of_kind K h -> vrun h = Ok t -> Z.of_nat (length (entries t)) <= 32767 ->
  (forall u v, In (u, v) (entries t) -> storable_key u /\ storable v) ->
  exists bs, np_serializer_write_map t = Some bs /\
    forall rest, np_serializer_read_map (bs ++ rest) = Some (VTree Plain (entries t), rest).
Proof.
  intros K h t Hk Hr Hl Hs. assert (S : storable (VTree Plain (entries t))) by (econstructor; eassumption).
  exact (C50_value_round_trip _ S).
Qed.

(** A tree with a nested tree, a token and negative numbers *)
Definition inner : list (op (V := tval)) := [Insert (UInt 5) (VLong (-70000)); Insert (UInt (-1)) (VStr [97; 98])].
Definition outer : outcome vtree :=
  obind (vrun inner) (fun i => vrun [Insert (UStr [110; 112]) (VTree Cwt (entries i)); Insert (UStr [105; 100]) (VUlongLong 5000000000)]).
Example C50_ex : obind outer (fun t => match np_serializer_write_map t with
    | Some bs => match np_serializer_read_map (bs ++ [1; 2; 3]) with
                 | Some (v, rest) => Ok (v, rest, length bs)
                 | None => Abort
                 end
    | None => Abort
    end) =
  Ok (VTree Plain [(UStr [105; 100], VUlongLong 5000000000); (UStr [110; 112], VTree Cwt [(UInt (-1), VStr [97; 98]); (UInt 5, VLong (-70000))])],
      [1; 2; 3], 47%nat).
Proof. vm_compute. reflexivity. Qed.
Example C50_storable_ex : exists t, vrun inner = Ok t /\ storable (VTree Cwt (entries t)).
Proof.
  assert (Hk : keys_of_kind (Ints (-100)) inner)
    by (repeat apply Forall_cons; try apply Forall_nil; intros u H; cbn in H; injection H as <-; cbn; lia).
  destruct (C18_map (VOther 0) stored_bytes val_bytes _ inner Hk) as (t & Er & _ & He & _).
  exists t. split; [exact Er|]. apply (S_tree Cwt _ inner t Hk Er).
  - assert (En : obind (vrun inner) (fun t => Ok (entries t)) = Ok [(UInt (-1), VStr [97; 98]); (UInt 5, VLong (-70000))]) by (vm_compute; reflexivity).
    unfold vrun in En. rewrite Er in En. cbn [obind] in En. injection En as ->. cbn. lia.
  - intros u v H. apply He in H. cbn [inner bindings change] in H.
    destruct (ukey_eq_dec u (UInt (-1))) as [->|N1].
    + cbn in H. injection H as <-. split; [cbn; lia|]. constructor; [cbn; lia|cbn; lia|repeat constructor; lia].
    + destruct (ukey_eq_dec u (UInt 5)) as [->|N2]; [|discriminate]. cbn in H. injection H as <-. split; [cbn; lia|]. constructor. lia.
Qed.

(** What does not survive: a key of one character (it is read back as a character, np_serialize_qcbor.c:232-234), a uuid
    key, a string of one character, an unsigned number above the largest signed one. *)
Definition resend (h : list (op (V := tval))) : outcome (option (tval * list Z)) :=
  obind (vrun h) (fun t => match np_serializer_write_map t with
    | Some bs => Ok (np_serializer_read_map bs)
    | None => Abort
    end).
Theorem C50_short_key_refuted : exists v, resend [Insert (UStr [97]) v] = Ok (Some (VTree Plain [], [])) /\ storable v.
Proof. exists (VInt 1). split; [vm_compute; reflexivity|constructor; lia]. Qed.
Theorem C50_uuid_key_refuted : exists b v, length b = 16%nat /\ resend [Insert (UUuid b) v] = Ok (Some (VTree Plain [], [])) /\ storable v.
Proof. exists (repeat 7 16), (VInt 1). split; [reflexivity|]. split; [vm_compute; reflexivity|constructor; lia]. Qed.
Theorem C50_short_string_refuted : resend [Insert (UInt 1) (VStr [97])] = Ok (Some (VTree Plain [(UInt 1, VChar 97)], [])).
Proof. vm_compute. reflexivity. Qed.
Theorem C50_large_number_refuted : exists z, 0 <= z < 18446744073709551616 /\
  resend [Insert (UInt 1) (VUlongLong z)] = Ok (Some (VTree Plain [(UInt 1, VUlongLong 0)], [])) /\ z <> 0.
Proof. exists 9223372036854775808. split; [lia|]. split; [vm_compute; reflexivity|lia]. Qed.

Print Assumptions C19_value_size.
Print Assumptions C19_tree_size.
Print Assumptions C19_uint_refuted.
Print Assumptions C19_hash_refuted.
Print Assumptions C50_value_round_trip.
Print Assumptions C50_tree_round_trip.
Print Assumptions C50_short_key_refuted.
Print Assumptions C50_uuid_key_refuted.
Print Assumptions C50_short_string_refuted.
Print Assumptions C50_large_number_refuted.
