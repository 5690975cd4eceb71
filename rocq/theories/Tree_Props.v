(** C18: the generic tree is a finite map.  C49: it stays balanced whatever the keys. *)
From Verif Require Import Base Dhkey_Model Rbtree_Model Rbtree_Spec Rbtree_Proofs Tree_Model Tree_Spec Tree_Proofs.

Section C18.
Context {V : Type} (undefined : V) (key_size : tkey -> Z) (val_size : V -> Z).
Notation run := (run undefined key_size val_size).
Notation find u t := (option_map snd (np_tree_find undefined u t)).

Lemma bindings_kind K (h : list (op (V := V))) : forall m u v, keys_of_kind K h -> (forall w, m u = Some w -> of_kind K u) ->
  bindings h m u = Some v -> of_kind K u.
Proof.
  induction h as [|o h IH]; intros m u v F H; cbn [bindings]; [apply H|]. inversion F as [|? ? Ho F']; subst. apply IH; auto.
  destruct o as [k x|k x|k|]; cbn [change]; try discriminate; intros w; destruct (ukey_eq_dec u k) as [->|]; eauto; discriminate.
Qed.

Lemma inv_entries K m (t : np_tree (V := V)) u v : Inv key_size val_size K m t -> (forall w, m u = Some w -> of_kind K u) ->
  In (u, v) (entries t) <-> m u = Some v.
Proof.
  intros I N. unfold entries. rewrite in_map_iff. split.
  - intros ([k x] & E & H). cbn in E. pose proof (inv_stored _ _ _ _ _ I) as F. rewrite Forall_forall in F.
    destruct (F _ H) as (w & Hw & Ek). cbn in Ek. subst k. rewrite (stored_back K w Hw) in E. injection E as -> ->.
    apply (inv_map _ _ _ _ _ I); auto.
  - intros H. exists (stored_key u, v). cbn. rewrite (stored_back K u (N v H)). split; [reflexivity|].
    apply (inv_map _ _ _ _ _ I); auto.
    exact (N v H).
Qed.

Lemma inv_nodup K m (t : np_tree (V := V)) : Inv key_size val_size K m t -> NoDup (map fst (entries t)).
Proof.
  intros I. unfold entries. rewrite map_map. cbn [fst].
  pose proof (inv_sorted _ _ _ _ _ I) as S. induction (elements (root t)) as [|e l IH]; cbn; [constructor|].
  inversion S as [|? ? S' F]; subst. constructor; [|apply IH; exact S'].
  intros H. apply in_map_iff in H as (x & Ex & Hx). rewrite Forall_forall in F. specialize (F x Hx).
  apply lt_neq in F. apply F. unfold val. rewrite Ex. reflexivity.
Qed.

Lemma inv_find K m (t : np_tree (V := V)) u : Inv key_size val_size K m t -> of_kind K u -> find u t = m u.
Proof. intros I Hu. rewrite (find_spec undefined key_size val_size K m t u I Hu). destruct (m u); reflexivity. Qed.

Lemma empty_inv K : Inv key_size val_size K no_bindings (np_tree_create (V := V)).
Proof. apply inv_empty. reflexivity. Qed.

(** After any history whose keys are of one kind: every call succeeds; a lookup returns exactly the current binding;
    an iteration yields exactly the current bindings, each once; the number of entries and the byte size count them. *)
Theorem C18_map : forall K (h : list (op (V := V))), keys_of_kind K h ->
  exists t, run h np_tree_create = Ok t /\
    (forall u, of_kind K u -> find u t = bindings h no_bindings u) /\
    (forall u v, In (u, v) (entries t) <-> bindings h no_bindings u = Some v) /\
    NoDup (map fst (entries t)) /\
    count t = u64 (Z.of_nat (length (entries t))) /\
    bytes t = u64 (fold_right (fun e s => key_size (stored_key (fst e)) + val_size (snd e) + s) 0 (entries t)).
Proof.
  intros K h F. destruct (run_inv undefined key_size val_size K h no_bindings np_tree_create (empty_inv K) F) as (t & E & I).
  exists t. split; [exact E|]. split; [intros u Hu; apply (inv_find K); auto|].
  split; [intros u v; apply (inv_entries K); [exact I|]; intros w; apply (bindings_kind K); [exact F|discriminate]|].
  split; [apply (inv_nodup K _ _ I)|]. split; [rewrite (inv_count _ _ _ _ _ I); unfold entries; rewrite map_length; reflexivity|].
  rewrite (inv_bytes _ _ _ _ _ I). f_equal. pose proof (inv_stored _ _ _ _ _ I) as S. unfold entries.
  induction (elements (root t)) as [|[k v] l IH]; [reflexivity|]. inversion S as [|? ? (u & Hu & Ek) S']; subst. cbn in Ek. subst k.
  cbn [total fold_right map fst snd]. fold (total key_size val_size l). rewrite IH by exact S'. unfold elem_size. cbn [fst snd].
  rewrite (stored_back K u Hu). reflexivity.
Qed.

(** Copying a tree into another one adds the missing bindings; copying in place overwrites; a clone has the same bindings. *)
Theorem C18_copy : forall K (h1 h2 : list (op (V := V))), keys_of_kind K h1 -> keys_of_kind K h2 ->
  exists s t c p q, run h1 np_tree_create = Ok s /\ run h2 np_tree_create = Ok t /\
    np_tree_copy undefined key_size val_size s t = Ok c /\
    np_tree_copy_inplace undefined key_size val_size s t = Ok p /\
    np_tree_clone undefined key_size val_size s = Ok q /\
    forall u, of_kind K u ->
      find u c = match find u t with Some w => Some w | None => find u s end /\
      find u p = match find u s with Some w => Some w | None => find u t end /\
      find u q = find u s.
Proof.
  intros K h1 h2 F1 F2.
  destruct (run_inv undefined key_size val_size K h1 no_bindings np_tree_create (empty_inv K) F1) as (s & E1 & I1).
  destruct (run_inv undefined key_size val_size K h2 no_bindings np_tree_create (empty_inv K) F2) as (t & E2 & I2).
  destruct (copy_step undefined key_size val_size K _ s _ t I1 I2) as (c & Ec & Ic).
  destruct (copy_inplace_step undefined key_size val_size K _ s _ t I1 I2) as (p & Ep & Ip).
  destruct (copy_step undefined key_size val_size K _ s _ _ I1 (empty_inv K)) as (q & Eq & Iq).
  exists s, t, c, p, (mkTree (root q) (count q) (bytes q) (immutable s)).
  split; [exact E1|]. split; [exact E2|]. split; [exact Ec|]. split; [exact Ep|].
  split; [unfold np_tree_clone; rewrite Eq; reflexivity|].
  intros u Hu. rewrite (inv_find K _ _ u I1 Hu), (inv_find K _ _ u I2 Hu), (inv_find K _ _ u Ic Hu), (inv_find K _ _ u Ip Hu).
  split; [reflexivity|]. split; [reflexivity|].
  change (find u (mkTree (root q) (count q) (bytes q) (immutable s))) with (find u q).
  rewrite (inv_find K _ _ u Iq Hu). reflexivity.
Qed.

(** Whatever the keys, mixed kinds included: no call of any history runs into undefined behaviour or aborts, and no search
    takes more than 2 * log2 (n + 1) comparisons in a tree of n entries. *)
Theorem C49_balanced : forall h, exists t, run h np_tree_create = Ok t /\
  (2 ^ height (root t) <= S (length (entries t)) * S (length (entries t)))%nat.
Proof.
  intros h. destruct (run_any undefined key_size val_size h np_tree_create) as (t & E & P & _).
  - split; [reflexivity|exists 0%nat; constructor].
  - reflexivity.
  - exists t. split; [exact E|]. unfold entries. rewrite map_length. apply proper_height. exact P.
Qed.
End C18.

(** ** Concrete cases *)
Definition one {A} (_ : A) : Z := 1.
Definition try_ (h : list (op (V := Z))) := run 0 one one h np_tree_create.
Definition lookup (h : list (op (V := Z))) (u : ukey) :=
  obind (try_ h) (fun t => Ok (option_map snd (np_tree_find 0 u t))).

Definition story := [Insert (UInt 5) 1; Insert (UInt (-7)) 2; Insert (UInt 5) 3; Replace (UInt 5) 4; Insert (UInt 9) 6; Insert (UInt 11) 7;
                     Delete (UInt (-7)); Insert (UInt 12) 8].
Example C18_ex : keys_of_kind (Ints (-20000)) story /\
  obind (try_ story) (fun t => Ok (entries t, count t, bytes t, option_map snd (np_tree_find 0 (UInt 5) t), np_tree_find 0 (UInt (-7)) t))
  = Ok ([(UInt 5, 4); (UInt 9, 6); (UInt 11, 7); (UInt 12, 8)], 4, 8, Some 4, None).
Proof.
  split; [|vm_compute; reflexivity].
  repeat apply Forall_cons; try apply Forall_nil; intros u H; cbn in H; injection H as <-; cbn; lia.
Qed.
Example C18_string_ex : keys_of_kind Strings [Insert (UStr [110; 112]) 1; Insert (UStr [110]) 2; Delete (UStr [110; 112])] /\
  lookup [Insert (UStr [110; 112]) 1; Insert (UStr [110]) 2; Delete (UStr [110; 112])] (UStr [110]) = Ok (Some 2).
Proof.
  split; [|vm_compute; reflexivity].
  repeat apply Forall_cons; try apply Forall_nil; intros u H; cbn in H; injection H as <-; cbn [of_kind];
    (split; [repeat constructor; lia|cbn; lia]).
Qed.
Example C49_ex : obind (try_ (map (fun i => Insert (UInt (Z.of_nat i)) 0) (seq 0 14))) (fun t => Ok (height (root t), length (entries t)))
  = Ok (6%nat, 14%nat).
Proof. vm_compute. reflexivity. Qed.

(** ** Where the kinds matter *)
(** Two different ulong keys that agree modulo 65536 are taken for one another (np_tree.c:78-79). *)
Theorem C18_ulong_refuted : exists h u, (forall o, In o h -> exists k v, o = Insert (UUlong k) v /\ 0 <= k < 4294967296) /\
  lookup h (UUlong u) = Ok (Some 1) /\ bindings h no_bindings (UUlong u) = Some 2.
Proof.
  exists [Insert (UUlong 0) 1; Insert (UUlong 65536) 2], 65536. split; [|split; [vm_compute; reflexivity|reflexivity]].
  intros o [<-|[<-|[]]]; [exists 0, 1|exists 65536, 2]; (split; [reflexivity|lia]).
Qed.
(** int keys that are further apart than 32767 can get lost when the tree is rebalanced (np_tree.c:80-81). *)
Theorem C18_int_refuted : exists h u, (forall o, In o h -> exists k v, o = Insert (UInt k) v /\ -32768 <= k < 32768) /\
  lookup h (UInt u) = Ok None /\ bindings h no_bindings (UInt u) = Some u.
Proof.
  exists (map (fun k => Insert (UInt k) k) [0; -20000; 20000; 20001; 20002; 20003; 20004; 20005]), (-20000).
  split; [|split; [vm_compute; reflexivity|reflexivity]].
  intros o H. apply in_map_iff in H as (k & <- & H). exists k, k. split; [reflexivity|]. cbn in H. lia.
Qed.
(** Keys of different kinds: a lookup of an int finds a string (np_tree.c:88-90). *)
Theorem C18_mixed_refuted : exists h u, lookup h u = Ok (Some 1) /\ bindings h no_bindings u = None.
Proof. exists [Insert (UStr [97]) 1], (UInt 5). split; [vm_compute; reflexivity|reflexivity]. Qed.
(** A string of more than 255 bytes is never found again, and the number of entries is wrong after a second insertion. *)
Theorem C18_long_refuted : exists h u v, lookup h u = Ok None /\ bindings h no_bindings u = Some v /\
  obind (try_ h) (fun t => Ok (count t, length (entries t))) = Ok (2, 1%nat).
Proof.
  exists [Insert (UStr (repeat 97 256)) 1; Insert (UStr (repeat 97 256)) 2], (UStr (repeat 97 256)), 1.
  split; [vm_compute; reflexivity|]. split; vm_compute; reflexivity.
Qed.

Print Assumptions C18_map.
Print Assumptions C18_copy.
Print Assumptions C49_balanced.
Print Assumptions C18_ulong_refuted.
Print Assumptions C18_int_refuted.
Print Assumptions C18_mixed_refuted.
Print Assumptions C18_long_refuted.
