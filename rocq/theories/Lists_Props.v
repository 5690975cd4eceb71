(** C11: the list containers are sequences. *)
From Verif Require Import Base Lists_Model Lists_Spec Lists_Proofs.

(** Example material: three node lists of integers. *)
Definition zcmp (x y : Z) : Z := x - y.
Definition zmem : mem Z := fun _ => None.

Lemma empty_holds {A} : sll_holds (fun _ => None : option (node A)) list_init [] (@nil A).
Proof. split; [exact I|]. split; [constructor|]. repeat split. Qed.
Lemma empty_dholds {A} : dll_holds (fun _ => None : option (node A)) list_init [] (@nil A).
Proof. split; [exact I|]. split; [constructor|]. repeat split. Qed.

(** Every history of append / prepend / head / tail / remove / contains on a single linked list
    returns the answers of a sequence and leaves the memory holding that sequence, with matching
    size, whatever (unused) addresses the allocator returns. *)
Theorem C11_single_list_history : forall (A : Type) (cmp : A -> A -> Z) fuel os (m : mem A) h addrs vals,
  sll_holds m h addrs vals -> allocs_fresh (sll_do cmp fuel) m h os ->
  (length vals + length os < fuel)%nat ->
  exists m' h' addrs',
    impl_run (sll_do cmp fuel) m h os = Ok (snd (seq_run cmp vals (map fst os)), m', h') /\
    sll_holds m' h' addrs' (fst (seq_run cmp vals (map fst os))).
Proof. intros A cmp fuel os m h addrs vals. eapply run_ok. intros. eapply sll_step_ok; eauto. Qed.

Definition demo_ops : list (seq_op Z * nat) :=
  [(OAppend 5, 1%nat); (OPrepend 6, 2%nat); (OAppend 5, 3%nat); (OContains 5, 9%nat); (ORemove 5, 9%nat); (OTail, 9%nat); (OPrepend 8, 1%nat); (OHead, 9%nat)].
Example single_list_history_applies :
  sll_holds zmem list_init [] [] /\ allocs_fresh (sll_do zcmp 20) zmem list_init demo_ops /\
  seq_run zcmp [] (map fst demo_ops) =
    ([6], [ANone; ANone; ANone; ABool true; ANone; AVal (Some 5); ANone; AVal (Some 8)]).
Proof.
  split; [apply empty_holds|]. split; [|vm_compute; reflexivity].
  unfold demo_ops. cbn -[sll_do]. repeat (split; [split; [lia|vm_compute; reflexivity]|]; cbn -[sll_do]). exact I.
Qed.

(** The same for the double linked list. *)
Theorem C11_double_list_history : forall (A : Type) (cmp : A -> A -> Z) fuel os (m : mem A) h addrs vals,
  dll_holds m h addrs vals -> allocs_fresh (dll_do cmp fuel) m h os ->
  (length vals + length os < fuel)%nat ->
  exists m' h' addrs',
    impl_run (dll_do cmp fuel) m h os = Ok (snd (seq_run cmp vals (map fst os)), m', h') /\
    dll_holds m' h' addrs' (fst (seq_run cmp vals (map fst os))).
Proof. intros A cmp fuel os m h addrs vals. eapply run_ok. intros. eapply dll_step_ok; eauto. Qed.

Example double_list_history_applies :
  dll_holds zmem list_init [] [] /\ allocs_fresh (dll_do zcmp 20) zmem list_init demo_ops.
Proof.
  split; [apply empty_dholds|].
  unfold demo_ops. cbn -[dll_do]. repeat (split; [split; [lia|vm_compute; reflexivity]|]; cbn -[dll_do]). exact I.
Qed.

(** Every history of insert / head / tail / remove on a priority list keeps it in descending order;
    an insertion without duplicates is refused exactly when an equal element is present and otherwise
    goes behind all elements that are not smaller. *)
Theorem C11_priority_list_history : forall (A : Type) (cmp : A -> A -> Z), comparator cmp ->
  forall fuel os (m : mem A) h addrs vals,
  dll_holds m h addrs vals -> descending cmp vals -> pll_allocs_fresh cmp fuel m h os ->
  (length vals + length os < fuel)%nat ->
  exists rs m' h' addrs' vals',
    pll_run cmp fuel m h os = Ok (rs, m', h') /\ dll_holds m' h' addrs' vals' /\
    descending cmp vals' /\ prio_run cmp vals (map fst os) rs vals'.
Proof. intros A cmp C fuel os m h addrs vals. apply pll_run_ok; auto. Qed.

Definition demo_pops : list (prio_op Z * nat) :=
  [(PInsert true 5, 1%nat); (PInsert false 7, 2%nat); (PInsert false 5, 3%nat); (PInsert true 5, 3%nat); (PRemove 7, 9%nat); (PTail, 9%nat); (PInsert false 3, 2%nat); (PHead, 9%nat)].
Example priority_list_history_applies :
  comparator zcmp /\ pll_allocs_fresh zcmp 20 zmem list_init demo_pops /\
  match pll_run zcmp 20 zmem list_init demo_pops with
  | Ok (rs, _, h) => rs = [ABool true; ABool true; ABool false; ABool true; ANone; AVal (Some 5); ABool true; AVal (Some 5)] /\ size h = 1
  | _ => False
  end.
Proof.
  split; [|split].
  - unfold zcmp. constructor; intros; lia.
  - unfold demo_pops. cbn -[pll_do]. repeat (split; [split; [lia|vm_compute; reflexivity]|]; cbn -[pll_do]). exact I.
  - vm_compute. auto.
Qed.

(** Insert after an iterator position. *)
Theorem C11_single_list_insert_after : forall (A : Type) (m : mem A) h as1 b as2 vs1 v vs2 a x,
  sll_holds m h (as1 ++ b :: as2) (vs1 ++ v :: vs2) -> length as1 = length vs1 -> is_fresh m a ->
  exists m' h', sll_insert m h a x b = Ok (m', h') /\
    sll_holds m' h' (as1 ++ b :: a :: as2) (vs1 ++ v :: x :: vs2) /\ same_outside m m' [a; b].
Proof. intros. apply sll_insert_ok; auto. Qed.

(** Deleting through an iterator removes exactly the element under it and frees its node. *)
Theorem C11_single_list_delete_at : forall (A : Type) (m : mem A) h as1 c as2 vs1 v vs2 fuel,
  sll_holds m h (as1 ++ c :: as2) (vs1 ++ v :: vs2) -> length as1 = length vs1 -> (length as1 < fuel)%nat ->
  exists m' h', sll_delete fuel m h c = Ok (m', h') /\ sll_holds m' h' (as1 ++ as2) (vs1 ++ vs2) /\
    same_outside m m' (as1 ++ c :: as2) /\ m' c = None.
Proof. intros. apply sll_delete_ok with v; auto. Qed.
Theorem C11_double_list_delete_at : forall (A : Type) (m : mem A) h as1 c as2 vs1 v vs2,
  dll_holds m h (as1 ++ c :: as2) (vs1 ++ v :: vs2) -> length as1 = length vs1 ->
  exists m' h', dll_delete m h c = Ok (m', h') /\ dll_holds m' h' (as1 ++ as2) (vs1 ++ vs2) /\
    same_outside m m' (as1 ++ c :: as2) /\ m' c = None.
Proof. intros. apply dll_delete_ok with v; auto. Qed.

Definition three : mem Z := fun k =>
  match k with 1%nat => Some (mkNode 2 0 10) | 2%nat => Some (mkNode 3 1 20) | 3%nat => Some (mkNode 0 2 30) | _ => None end.
Example position_theorems_apply :
  sll_holds three (mkHdr 3 1 3) ([1] ++ 2 :: [3])%nat ([10] ++ 20 :: [30]) /\
  dll_holds three (mkHdr 3 1 3) ([1] ++ 2 :: [3])%nat ([10] ++ 20 :: [30]) /\ is_fresh three 4.
Proof.
  assert (NoDup ([1] ++ 2 :: [3])%nat).
  { repeat (constructor; [cbn; intuition lia|]). constructor. }
  split; [|split].
  - split; [|split; [auto|repeat split; reflexivity]].
    cbn. repeat (split; [lia|split; [eexists; reflexivity|]]). exact I.
  - split; [|split; [auto|repeat split; reflexivity]].
    cbn. repeat (split; [lia|split; [reflexivity|]]). exact I.
  - split; [lia|reflexivity].
Qed.

(** Copying a list onto another appends all its elements and leaves the source untouched. *)
Theorem C11_single_list_clone : forall (A : Type) (m : mem A) hs sa sv ht ta tv news fuel,
  sll_holds m hs sa sv -> sll_holds m ht ta tv -> (forall a, In a sa -> ~ In a ta) ->
  NoDup news -> (forall a, In a news -> is_fresh m a) -> length news = length sv -> (length sv < fuel)%nat ->
  exists m' h', sll_clone fuel m hs ht news = Ok (m', h') /\
    sll_holds m' h' (ta ++ news) (tv ++ sv) /\ sll_holds m' hs sa sv /\ same_outside m m' (ta ++ news).
Proof.
  intros A m hs sa sv ht ta tv news fuel HS HT D N F L Hf. pose proof HS as (S & Ns & (Hf1 & Hl & Hsz)).
  unfold sll_clone. rewrite Hf1.
  destruct (sll_clone_loop_ok sa sv fuel m ht ta tv news) as (m' & h' & E & T & Fr); auto.
  exists m', h'. split; auto. split; auto. split; auto. split; [|split; auto; split; auto].
  apply sseg_frame with m; auto. intros a Ha. apply Fr. intros Hi. apply in_app_or in Hi.
  destruct Hi as [Hi|Hi]; [eapply D; eauto|]. destruct (F a Hi). destruct (sseg_nz _ _ _ _ S a Ha) as (_ & y & Hy). congruence.
Qed.

(** Merging yields a new list with the elements of the second list and then those of the first,
    keeping the first of equal elements; both arguments are unchanged. *)
Theorem C11_single_list_merge : forall (A : Type) (cmp : A -> A -> Z) (m : mem A) ha aa av hb ba bv news fuel,
  sll_holds m ha aa av -> sll_holds m hb ba bv ->
  NoDup news -> (forall a, In a news -> is_fresh m a) -> length news = (length av + length bv)%nat ->
  (2 * length av + 2 * length bv < fuel)%nat ->
  exists m' h' used, sll_merge fuel cmp m ha hb news = Ok (m', h') /\
    sll_holds m' h' used (add_missing cmp [] (bv ++ av)) /\ incl used news /\
    sll_holds m' ha aa av /\ sll_holds m' hb ba bv.
Proof.
  intros A cmp m ha aa av hb ba bv news fuel HA HB N F L Hf.
  pose proof HA as (SA & NA & (HfA & HlA & HsA)). pose proof HB as (SB & NB & (HfB & HlB & HsB)).
  unfold sll_merge. rewrite HfB.
  assert (E0 : sll_holds m list_init [] (@nil A)) by (split; [exact I|]; split; [constructor|]; repeat split).
  destruct (sll_merge_loop_ok cmp ba bv fuel m list_init [] [] news) as (m1 & h1 & news1 & used1 & E1 & En1 & L1 & T1 & F1); auto.
  - lia.
  - cbn; lia.
  - rewrite E1. cbn [obind]. rewrite HfA. cbn [app] in *. subst news.
    assert (keep1 : forall a x, m a = Some x -> m1 a = m a).
    { intros a x Hx. apply F1. intros Hi. destruct (F a) as [_ Hn]; [apply in_or_app; auto|]. congruence. }
    assert (SA1 : sseg m1 aa av 0).
    { apply sseg_frame with m; auto. intros a Ha. destruct (sseg_nz _ _ _ _ SA a Ha) as (_ & y & Hy). eauto. }
    assert (SB1 : sseg m1 ba bv 0).
    { apply sseg_frame with m; auto. intros a Ha. destruct (sseg_nz _ _ _ _ SB a Ha) as (_ & y & Hy). eauto. }
    assert (Ladd : forall (l : list A) acc, (length (add_missing cmp acc l) <= length acc + length l)%nat).
    { clear. induction l as [|x l IH]; intros acc; cbn [add_missing]; [lia|].
      destruct (existsb _ acc); [specialize (IH acc)|specialize (IH (acc ++ [x]))]; try rewrite app_length in IH; cbn in *; lia. }
    destruct (sll_merge_loop_ok cmp aa av fuel m1 h1 used1 (add_missing cmp [] bv) news1)
      as (m2 & h2 & news2 & used2 & E2 & En2 & L2 & T2 & F2); auto.
    + intros a Ha Hu. destruct (F a) as [_ Hn]; [apply in_or_app; auto|].
      destruct (sseg_nz _ _ _ _ SA a Ha) as (_ & y & Hy). congruence.
    + apply NoDup_app_r in N; auto.
    + intros a Ha. destruct (F a) as [H0 Hn]; [apply in_or_app; auto|]. split; auto. rewrite F1; auto.
      intros Hi. clear -N Ha Hi. induction used1 as [|z u IH]; [destruct Hi|]. cbn in N. inversion N; subst.
      destruct Hi as [->|Hi]; [apply H1; apply in_or_app; auto|auto].
    + lia.
    + specialize (Ladd bv []). cbn in Ladd. lia.
    + rewrite E2. cbn [obind]. subst news1. exists m2, h2, (used1 ++ used2). split; auto. split.
      { replace (add_missing cmp [] (bv ++ av)) with (add_missing cmp (add_missing cmp [] bv) av); auto.
        clear. generalize (@nil A). induction bv as [|x bv IH]; intros acc; cbn [add_missing app]; auto.
        destruct (existsb _ acc); auto. }
      split; [intros k Hk; rewrite app_assoc; apply in_or_app; auto|].
      assert (keep2 : forall a, (exists x, m a = Some x) -> m2 a = m1 a).
      { intros a (x & Hx). apply F2. intros Hi. destruct (F a) as [_ Hn]; [|congruence].
        rewrite app_assoc. apply in_or_app; auto. }
      split; (split; [|split; auto; split; auto]); [apply sseg_frame with m1; auto; intros a Ha; apply keep2; eapply (sseg_nz _ _ _ _ SA); auto|].
      apply sseg_frame with m1; auto; intros a Ha; apply keep2; eapply (sseg_nz _ _ _ _ SB); auto.
Qed.

Definition two_lists : mem Z := fun k =>
  match k with 1%nat => Some (mkNode 2 0 10) | 2%nat => Some (mkNode 0 0 20)
             | 3%nat => Some (mkNode 4 0 20) | 4%nat => Some (mkNode 0 0 30) | _ => None end.
Example clone_merge_apply :
  sll_holds two_lists (mkHdr 2 1 2) [1;2]%nat [10;20] /\ sll_holds two_lists (mkHdr 2 3 4) [3;4]%nat [20;30] /\
  (forall a, In a [5;6;7;8]%nat -> is_fresh two_lists a) /\ add_missing zcmp [] ([20;30] ++ [10;20]) = [20;30;10].
Proof.
  split; [|split; [|split]].
  1,2: split; [|split; [repeat (constructor; [cbn; intuition lia|]); constructor|repeat split; reflexivity]];
    cbn; repeat (split; [lia|split; [eexists; reflexivity|]]); exact I.
  - intros a [<-|[<-|[<-|[<-|[]]]]]; (split; [lia|reflexivity]).
  - reflexivity.
Qed.

(** Clearing a double linked or priority list empties it and frees every node. *)
Theorem C11_double_list_clear : forall (A : Type) (m : mem A) h addrs vals fuel,
  dll_holds m h addrs vals -> (length vals < fuel)%nat ->
  exists m' h', dll_clear fuel m h = Ok (m', h') /\ dll_holds m' h' [] (@nil A) /\
    (forall a, In a addrs -> m' a = None) /\ same_outside m m' addrs.
Proof. intros. eapply dll_clear_ok; eauto. Qed.

(** Replace exchanges the first equal element in place and returns the old one. *)
Theorem C11_priority_list_replace : forall (A : Type) (cmp : A -> A -> Z) (m : mem A) h addrs vals x fuel,
  dll_holds m h addrs vals -> (length vals < fuel)%nat ->
  exists m', pll_replace fuel cmp m h x = Ok (find (fun v => cmp v x =? 0) vals, m') /\
    (forall v1 y v2, vals = v1 ++ y :: v2 -> existsb (fun v => cmp v x =? 0) v1 = false -> cmp y x = 0 ->
       dll_holds m' h addrs (v1 ++ x :: v2)) /\
    (existsb (fun v => cmp v x =? 0) vals = false -> m' = m).
Proof. intros. eapply pll_replace_ok; eauto. Qed.

(** Single linked find returns the first equal element. *)
Theorem C11_single_list_find : forall (A : Type) (cmp : A -> A -> Z) (m : mem A) h addrs vals x d fuel,
  sll_holds m h addrs vals -> (length vals < fuel)%nat ->
  sll_find fuel cmp m h x d = Ok (match find (fun v => cmp v x =? 0) vals with Some v => v | None => d end).
Proof. intros. eapply sll_find_ok; eauto. Qed.

(** FINDING: sll_clear keeps the stale tail pointer.  After clear, taking the tail - or prepending and
    then appending - follows a freed node. *)
Theorem C11_single_list_clear_then_use_refuted :
  exists (m : mem Z) h addrs vals, sll_holds m h addrs vals /\
    match sll_clear 10 m h with
    | Ok (m1, h1) => size h1 = 0 /\ sll_tail 10 m1 h1 = UB /\
        match sll_prepend m1 h1 7 70 with Ok (m2, h2) => is_fresh m2 8 /\ sll_append m2 h2 8 80 = UB | _ => False end
    | _ => False
    end.
Proof.
  exists two_lists, (mkHdr 2 1 2), [1;2]%nat, [10;20]. split; [apply clone_merge_apply|].
  vm_compute. repeat split; auto. discriminate.
Qed.

(** FINDING: pll_find gives up at the first element comparing as 1 (that is, larger).  In the descending
    order that pll_insert builds it therefore misses elements that are present. *)
Definition sgn_cmp (x y : Z) : Z := Z.sgn (x - y).
Theorem C11_priority_list_find_refuted :
  comparator sgn_cmp /\
  exists (m : mem Z) h addrs vals, dll_holds m h addrs vals /\ descending sgn_cmp vals /\ In 5 vals /\
    pll_find 10 sgn_cmp m h 5 = Ok None.
Proof.
  split.
  - unfold sgn_cmp. constructor; intros; lia.
  - exists (fun k => match k with 1%nat => Some (mkNode 2 0 7) | 2%nat => Some (mkNode 0 1 5) | _ => None end),
      (mkHdr 2 1 2), [1;2]%nat, [7;5].
    split; [|split; [|split; [cbn; auto|reflexivity]]].
    + split; [|split; [repeat (constructor; [cbn; intuition lia|]); constructor|repeat split; reflexivity]].
      cbn. repeat (split; [lia|split; [reflexivity|]]). exact I.
    + repeat constructor; vm_compute; discriminate.
Qed.

(** FINDING: the default comparison generated by the macros answers 0 for equal and -1 otherwise
    (include/util/np_list.h:156-158); it is not an ordering and insertion without duplicates admits them. *)
Definition default_cmp (x y : Z) : Z := if x =? y then 0 else -1.
Theorem C11_default_comparison_admits_duplicates_refuted :
  ~ comparator default_cmp /\
  match pll_run default_cmp 10 zmem list_init [(PInsert false 1, 1%nat); (PInsert false 2, 2%nat); (PInsert false 1, 3%nat)] with
  | Ok (rs, m, h) => rs = [ABool true; ABool true; ABool true] /\ size h = 3 /\
      dll_holds m h [3;2;1]%nat [1;2;1]
  | _ => False
  end.
Proof.
  split.
  - intros [_ Ha _]. specialize (Ha 1 2). vm_compute in Ha. destruct Ha as [Ha _]. discriminate (Ha eq_refl).
  - cbn. split; auto. split; [reflexivity|].
    split; [|split; [repeat (constructor; [cbn; intuition lia|]); constructor|repeat split; reflexivity]].
    cbn. repeat (split; [lia|split; [reflexivity|]]). exact I.
Qed.

Print Assumptions C11_single_list_history.
Print Assumptions C11_double_list_history.
Print Assumptions C11_priority_list_history.
Print Assumptions C11_single_list_insert_after.
Print Assumptions C11_single_list_delete_at.
Print Assumptions C11_double_list_delete_at.
Print Assumptions C11_single_list_clone.
Print Assumptions C11_single_list_merge.
Print Assumptions C11_double_list_clear.
Print Assumptions C11_priority_list_replace.
Print Assumptions C11_single_list_find.
Print Assumptions C11_single_list_clear_then_use_refuted.
Print Assumptions C11_priority_list_find_refuted.
Print Assumptions C11_default_comparison_admits_duplicates_refuted.
