(** C25: the prefix trie is a finite map *)
From Verif Require Import Base Trie_Model Trie_Spec Trie_Proofs.
From Coq Require Import Sorted.

(** Keys of 1 to 8191 bytes.  As long as the trie is never emptied by a removal, and every new key agrees loosely with the
    keys present (after the first half byte in which they differ they have at most one half byte in common), every history
    of inserts and removals is carried out and afterwards a lookup gives what the map holds: every key inserted and not
    removed, with its data, and no other.  Missing: keys that share more (C25_lost_refuted) and an emptied trie
    (C25_emptied_refuted). *)
Theorem C25_map_partial : forall n h, (1 <= n)%nat -> Z.of_nat n <= 8191 -> Forall (fun o => is_key n (op_key o)) h -> never_emptied empty h -> loose empty h ->
  exists t, run None h = Ok t /\ forall k, is_key n k -> find t k = acts empty h k.
Proof.
  intros n h Hn Hb F Ne Lo. destruct (rep_run n Hn Hb h None empty (fun k => eq_refl) F Ne Lo) as (t & E & R). exists t. split; auto. intros k W. apply (rep_find n); auto.
Qed.
(** Keys of one byte: nothing is asked of the keys. *)
Lemma short_loosely k x : length k = 1%nat -> loosely k x.
Proof. intros L m a b H1 H2. lia. Qed.
Lemma short_loose h : forall m, Forall (fun o => is_key 1 (op_key o)) h -> loose m h.
Proof. induction h as [|o h IH]; intros m F; cbn [loose]; auto. inversion F as [|? ? [L _] F']; subst. split; auto. destruct o as [k f|k]; auto. intros _ x _. apply short_loosely. exact L. Qed.
Theorem C25_short : forall h, Forall (fun o => is_key 1 (op_key o)) h -> never_emptied empty h ->
  exists t, run None h = Ok t /\ forall k, is_key 1 k -> find t k = acts empty h k.
Proof. intros h F Ne. apply (C25_map_partial 1); auto; [lia|]. apply short_loose. auto. Qed.

(** The walk visits exactly what the map holds, each key once, in the order of the keys. *)
Theorem C25_walk : forall n h t, (1 <= n)%nat -> Z.of_nat n <= 8191 -> Forall (fun o => is_key n (op_key o)) h -> never_emptied empty h -> loose empty h -> run None h = Ok (Some t) ->
  StronglySorted before (map fst (leaves t)) /\ forall k v, In (k, v) (leaves t) <-> acts empty h k = Some v.
Proof.
  intros n h t Hn Hb F Ne Lo Et. destruct (rep_run n Hn Hb h None empty (fun k => eq_refl) F Ne Lo) as (t' & E & R). rewrite Et in E. injection E as <-. destruct R as [O L]. split; auto. eapply walk_sorted; eauto.
Qed.

(** A removal reports a missing key exactly if the key is not there. *)
Theorem C25_missing : forall n h t k, (1 <= n)%nat -> Z.of_nat n <= 8191 -> Forall (fun o => is_key n (op_key o)) (h ++ [Del k]) -> never_emptied empty (h ++ [Del k]) -> loose empty h -> run None h = Ok t ->
  (snd (delete t k) = Missing <-> acts empty h k = None).
Proof.
  intros n h t k Hn Hb F Ne Lo Et. apply Forall_app in F. destruct F as [F Fk]. inversion Fk as [|? ? Wk _]; subst. cbn [op_key] in Wk.
  assert (Q : forall m, never_emptied m (h ++ [Del k]) -> never_emptied m h /\ (acts m h k = None \/ exists x, x <> k /\ acts m h x <> None)).
  { clear. induction h as [|o h IH]; intros m; cbn [app never_emptied acts]; [tauto|]. intros [A B]. apply IH in B. tauto. }
  apply Q in Ne. destruct Ne as [Ne Nk]. destruct (rep_run n Hn Hb h None empty (fun k => eq_refl) F Ne Lo) as (t' & E & R). rewrite Et in E. injection E as <-.
  destruct (rep_del n t (acts empty h) k R Wk Nk) as [_ D]. destruct (acts empty h k); [|tauto]. destruct D as [D|D]; rewrite D; split; discriminate.
Qed.
(** The data handed out by a removal, if there was no removal before: the data of the key.  Missing: what is handed out
    after other removals (C25_dangling_refuted). *)
Theorem C25_data_partial : forall n l t k v, (1 <= n)%nat -> Z.of_nat n <= 8191 -> Forall (fun kf => is_key n (fst kf)) l -> is_key n k ->
  let h := map (fun kf => Ins (fst kf) (snd kf)) l in
  loose empty h -> run None h = Ok t -> acts empty h k = Some v -> snd (delete t k) = Data v.
Proof.
  intros n l t k v Hn Hb F Wk h Lo Et Ek. assert (Fh : Forall (fun o => is_key n (op_key o)) h) by (unfold h; rewrite Forall_map; exact F).
  assert (Ne : never_emptied empty h) by (unfold h; clear; generalize empty; induction l as [|a l IH]; intros m; cbn [map never_emptied]; auto).
  destruct (rep_run n Hn Hb h None empty (fun k => eq_refl) Fh Ne Lo) as (t' & E & R). rewrite Et in E. injection E as <-. destruct t as [t|]; [|cbn [rep] in R; rewrite R in Ek; discriminate].
  assert (Fu : full t) by (eapply (full_run n Hn Hb l None empty (Some t)); eauto; [intros x; reflexivity|discriminate]). destruct R as [O L]. apply L in Ek.
  destruct (full_delete n k v Wk 0 t O Fu Ek) as [Ed En]. destruct t as [k' v'|s kids]; [exact Ed|]. unfold delete. destruct (delete_below (Branch s kids) k) as [[c|] d]; cbn [fst snd] in *; auto.
Qed.

(** Union: the first trie then holds its own keys and those of the second, whose data went through the combination. *)
Lemma loose_ins l : forall m, NoDup (map fst l) -> (forall k x, In k (map fst l) -> m k = None -> m x <> None \/ In x (map fst l) -> loosely k x) -> forall g : Z -> Z -> Z, loose m (map (fun kv => Ins (fst kv) (fun x => g x (snd kv))) l).
Proof.
  induction l as [|[k v] l IH]; intros m N H g; cbn [map loose fst snd] in *; auto. inversion N as [|? ? N1 N2]; subst. split.
  - intros Nk x Hx. apply H; [left; reflexivity|exact Nk|left; exact Hx].
  - apply IH; auto. intros k' x Hk' Nk' Hx. cbn [act] in *. assert (k' <> k) by (intros ->; auto). rewrite put_other in Nk' by auto. apply H; [right; auto|auto|].
    destruct Hx as [Hx|Hx]; [|right; right; auto]. destruct (list_eq_dec Z.eq_dec x k) as [->|Nx]; [right; left; auto|left; rewrite put_other in Hx; auto].
Qed.
Theorem C25_union_partial : forall n h h' t j combine, (1 <= n)%nat -> Z.of_nat n <= 8191 ->
  Forall (fun o => is_key n (op_key o)) h -> never_emptied empty h -> loose empty h -> run None h = Ok t ->
  Forall (fun o => is_key n (op_key o)) h' -> never_emptied empty h' -> loose empty h' -> run None h' = Ok j ->
  (forall k x, acts empty h' k <> None -> acts empty h k = None -> acts empty h x <> None \/ acts empty h' x <> None -> loosely k x) ->
  exists u, union t j combine = Ok u /\ forall k, is_key n k -> find u k =
    match acts empty h' k with None => acts empty h k | Some v => Some (combine (match acts empty h k with Some w => w | None => 0 end) v) end.
Proof.
  intros n h h' t j g Hn Hb F Ne Lo Et F' Ne' Lo' Ej LL.
  destruct (rep_run n Hn Hb h None empty (fun k => eq_refl) F Ne Lo) as (t' & E & R). rewrite Et in E. injection E as <-.
  destruct (rep_run n Hn Hb h' None empty (fun k => eq_refl) F' Ne' Lo') as (j' & E & R'). rewrite Ej in E. injection E as <-.
  destruct j as [j|]; cbn [union].
  - destruct R' as [Oj Lj]. pose proof (sorted_nodup _ (walk_sorted n 0 j Oj)) as Nd. rewrite insert_all_run.
    assert (InK : forall x, In x (map fst (leaves j)) <-> acts empty h' x <> None).
    { intros x. split.
      - intros H. apply key_leaf in H. destruct H as (v & H). apply Lj in H. congruence.
      - intros H. destruct (acts empty h' x) as [v|] eqn:Q; [|congruence]. apply Lj in Q. eapply leaf_key; eauto. }
    destruct (rep_run n Hn Hb (map (fun kv => Ins (fst kv) (fun x => g x (snd kv))) (leaves j)) t (acts empty h) R) as (u & Eu & Ru).
    + rewrite Forall_map. rewrite Forall_forall. intros [k v] H. cbn. apply (ok_keys n 0 j Oj). eapply leaf_key; eauto.
    + clear. generalize (acts empty h) as m. induction (leaves j) as [|a l IH]; intros m; cbn [map never_emptied]; auto.
    + apply loose_ins; auto. intros k x Hk Nk Hx. apply LL; auto; [apply InK; auto|]. destruct Hx; auto. right. apply InK. auto.
    + exists u. split; auto. intros k W. rewrite (rep_find n u _ k Ru W), acts_inserts by auto.
      destruct (List.find (fun kv => key_eq (fst kv) k) (leaves j)) as [[k' v]|] eqn:Q.
      * apply find_some in Q. destruct Q as [Q1 Q2]. cbn [fst snd] in *. apply key_eq_iff in Q2. subst k'. apply Lj in Q1. rewrite Q1. reflexivity.
      * destruct (acts empty h' k) as [v|] eqn:Ev; auto. exfalso. apply Lj in Ev. pose proof (find_none _ _ Q _ Ev) as X. cbn [fst] in X. rewrite (proj2 (key_eq_iff k k) eq_refl) in X. discriminate.
  - exists t. split; auto. intros k W. cbn [rep] in R'. rewrite R'. apply (rep_find n); auto.
Qed.

(** * What fails *)
Definition set (v : Z) : Z -> Z := fun _ => v.
(** A key that was inserted and never removed is not found any more after another insert. *)
Definition lost : list op :=
  [Ins [0;0;0;0] (set 1); Ins [16;0;0;0] (set 2); Ins [0;16;0;0] (set 3); Ins [0;0;0;16] (set 4); Ins [5;0;0;0] (set 5); Ins [5;112;0;0] (set 6)].
Theorem C25_lost_refuted : exists h t k, Forall (fun o => is_key 4 (op_key o)) h /\ (forall o, In o h -> exists x f, o = Ins x f) /\ is_key 4 k /\ run None h = Ok t /\ acts empty h k = Some 5 /\ find t k = None.
Proof.
  exists lost. eexists. exists [5;0;0;0]. split; [unfold lost; repeat constructor; cbn; lia|]. split; [intros o Ho; cbn in Ho; intuition (subst; eauto)|]. split; [repeat constructor; cbn; lia|].
  split; [vm_compute; reflexivity|]. split; vm_compute; reflexivity.
Qed.
(** After both keys were removed, the next insert has undefined behaviour. *)
Theorem C25_emptied_refuted : exists h, Forall (fun o => is_key 1 (op_key o)) h /\ (forall k, acts empty h k = None) /\ forall k f, exists t, run None h = Ok t /\ insert t k f = UB.
Proof.
  exists [Ins [16] (set 1); Ins [32] (set 2); Del [16]; Del [32]]. split; [repeat constructor; cbn; lia|]. split.
  - intros k. cbn [acts act]. unfold put. destruct (key_eq k [32]) eqn:A; auto. destruct (key_eq k [16]) eqn:B; auto.
  - intros k f. eexists. split; [vm_compute; reflexivity|reflexivity].
Qed.
(** The removal of the last key below a branch hands out a pointer into freed memory. *)
Theorem C25_dangling_refuted : exists h t k v, Forall (fun o => is_key 1 (op_key o)) h /\ never_emptied empty (h ++ [Del k]) /\ run None h = Ok t /\ acts empty h k = Some v /\ find t k = Some v /\ snd (delete t k) = Dangling.
Proof.
  exists [Ins [16] (set 1); Ins [32] (set 2); Ins [33] (set 3); Del [32]]. eexists. exists [33], 3. split; [repeat constructor; cbn; lia|]. split.
  - cbn [app never_emptied]. repeat split; auto; right; exists [16]; (split; [congruence|cbv; discriminate]).
  - split; [vm_compute; reflexivity|]. repeat split; vm_compute; reflexivity.
Qed.
(** An intersection keeps keys that are only in the first trie. *)
Theorem C25_intersect_refuted : exists h t k v k', run None h = Ok t /\ k <> k' /\ forall g, find (intersect_leaf t k v g) k' = Some 2.
Proof.
  exists [Ins [16] (set 1); Ins [32] (set 2)]. eexists. exists [16], 7, [32]. split; [vm_compute; reflexivity|]. split; [discriminate|]. intros g. reflexivity.
Qed.

(** * The hypotheses are met *)
Definition sample : list op := [Ins [18;52] (set 1); Ins [18;86] (set 2); Ins [120;50] (set 3); Ins [18;52] (fun x => x + 10); Del [18;86]; Ins [18;57] (set 4)].
Lemma put_some m k o x : put m k o x <> None -> x = k \/ m x <> None.
Proof. unfold put. destruct (key_eq x k) eqn:E; auto. apply key_eq_iff in E. auto. Qed.
Definition loosely_b (k x : list Z) : bool :=
  let r := seq 0 (2 * length k) in
  forallb (fun m => forallb (fun a => forallb (fun b => negb ((m <? a)%nat && (a <? b)%nat && negb (half k m =? half x m) && (half k a =? half x a) && (half k b =? half x b)) ) r) r) r.
Lemma loosely_ok k x : loosely_b k x = true -> loosely k x.
Proof.
  unfold loosely_b. intros H m a b [H1 H2] H3 _ N A B. rewrite forallb_forall in H. specialize (H m ltac:(apply in_seq; lia)). rewrite forallb_forall in H. specialize (H a ltac:(apply in_seq; lia)). rewrite forallb_forall in H. specialize (H b ltac:(apply in_seq; lia)).
  apply negb_true_iff in H. apply Nat.ltb_lt in H1. apply Nat.ltb_lt in H2. apply Z.eqb_neq in N. apply Z.eqb_eq in A. apply Z.eqb_eq in B. rewrite H1, H2, N, A, B in H. discriminate.
Qed.
Example sample_meets : Forall (fun o => is_key 2 (op_key o)) sample /\ never_emptied empty sample /\ loose empty sample.
Proof.
  split; [unfold sample; repeat constructor; cbn; lia|]. split.
  - unfold sample. cbn [never_emptied]. repeat split; auto. right. exists [18;52]. split; [congruence|cbv; discriminate].
  - unfold sample. cbn [loose act]. repeat split; intros Nk x Hx; try (cbv in Nk; discriminate); repeat (apply put_some in Hx; destruct Hx as [->|Hx]; [apply loosely_ok; vm_compute; reflexivity|]); exfalso; apply Hx; reflexivity.
Qed.
Example sample_result : exists t, run None sample = Ok t /\ find t [18;52] = Some 11 /\ find t [18;86] = None /\ find t [120;50] = Some 3 /\ find t [18;57] = Some 4.
Proof. eexists. split; [vm_compute; reflexivity|]. repeat split; vm_compute; reflexivity. Qed.
Example data_meets : let l := [([18;52], set 1); ([18;86], set 2); ([120;50], set 3)] in
  loose empty (map (fun kf => Ins (fst kf) (snd kf)) l) /\ acts empty (map (fun kf => Ins (fst kf) (snd kf)) l) [18;86] = Some 2.
Proof.
  split; [|reflexivity]. cbn [map fst snd loose act]. repeat split; intros Nk x Hx; repeat (apply put_some in Hx; destruct Hx as [->|Hx]; [apply loosely_ok; vm_compute; reflexivity|]); exfalso; apply Hx; reflexivity.
Qed.
Example union_meets : let h := [Ins [16] (set 1); Ins [32] (set 2)] in let h' := [Ins [33] (set 3); Ins [32] (set 4)] in
  Forall (fun o => is_key 1 (op_key o)) h /\ Forall (fun o => is_key 1 (op_key o)) h' /\ never_emptied empty h /\ never_emptied empty h' /\
  (forall k x, acts empty h' k <> None -> acts empty h k = None -> acts empty h x <> None \/ acts empty h' x <> None -> loosely k x).
Proof.
  repeat split; try (repeat constructor; cbn; lia); auto. intros k x Hk _ _. apply short_loosely. cbn [acts act] in Hk. apply put_some in Hk. destruct Hk as [->|Hk]; auto. apply put_some in Hk. destruct Hk as [->|Hk]; auto. exfalso. apply Hk. reflexivity.
Qed.

(** What an intersection with one key does: it combines the data under that key, if there are any, and leaves all the others. *)
Theorem C25_intersect_one : forall n h t k v g, (1 <= n)%nat -> Z.of_nat n <= 8191 -> Forall (fun o => is_key n (op_key o)) h -> never_emptied empty h -> loose empty h -> run None h = Ok t -> is_key n k ->
  forall x, is_key n x -> find (intersect_leaf t k v g) x =
    if list_eq_dec Z.eq_dec x k then match acts empty h k with Some w => Some (g w v) | None => None end else acts empty h x.
Proof.
  intros n h t k v g Hn Hb F Ne Lo Et W x Wx. destruct (rep_run n Hn Hb h None empty (fun k => eq_refl) F Ne Lo) as (t' & E & R). rewrite Et in E. injection E as <-.
  pose proof (rep_find n t _ k R W) as Fk. pose proof (rep_find n t _ x R Wx) as Fx.
  destruct t as [t|]; cbn [intersect_leaf find] in *.
  - rewrite Fk. destruct (acts empty h k) as [w|] eqn:Ek.
    + destruct R as [O L]. assert (Hk : In (k, w) (leaves t)) by (apply L; auto).
      assert (Kk : In k (keys t)) by (eapply leaf_key; eauto).
      destruct (change_ok n k (fun y => g y v) W 0 t O Kk) as [O' L'].
      destruct (list_eq_dec Z.eq_dec x k) as [->|N].
      * apply (find_iff n 0 _ k _ W O'). apply L'. right. split; auto. exists w. auto.
      * destruct (acts empty h x) as [u|] eqn:Ex.
        -- apply (find_iff n 0 _ x _ Wx O'). apply L'. left. split; auto. apply L. auto.
        -- destruct (find_qpe (change t k true (fun y => g y v)) x) as [u|] eqn:Q; auto. apply (find_iff n 0 _ x _ Wx O') in Q. apply L' in Q. destruct Q as [[_ Q]|[Q _]]; [|contradiction]. apply L in Q. congruence.
    + destruct (list_eq_dec Z.eq_dec x k) as [->|N]; congruence.
  - destruct (list_eq_dec Z.eq_dec x k) as [->|N]; [rewrite <- Fk; auto|auto].
Qed.

Print Assumptions C25_map_partial.
Print Assumptions C25_short.
Print Assumptions C25_walk.
Print Assumptions C25_missing.
Print Assumptions C25_data_partial.
Print Assumptions C25_union_partial.
Print Assumptions C25_lost_refuted.
Print Assumptions C25_emptied_refuted.
Print Assumptions C25_dangling_refuted.
Print Assumptions C25_intersect_refuted.
Print Assumptions C25_intersect_one.
