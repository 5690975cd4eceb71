(** Proofs about the routing table. *)
From Verif Require Import Base Dhkey_Model Dhkey_Spec Dhkey_Proofs Dhkey_Props Keycache_Model Keycache_Spec Keycache_Proofs Route_Model Route_Spec.

(** The indexes in the order of the loops *)
Definition all_slots : list Z :=
  flat_map (fun i => flat_map (fun j => map (fun k => slot i j k) (upto MAX_ENTRY)) (upto MAX_COL)) (upto MAX_ROW).

(** ** Slots *)
Lemma upto_in n s : In s (upto n) <-> 0 <= s < n.
Proof.
  unfold upto. rewrite in_map_iff. split.
  - intros (k & <- & H). rewrite in_seq in H. lia.
  - intros H. exists (Z.to_nat s). rewrite in_seq. lia.
Qed.
Lemma upto_nodup n : NoDup (upto n).
Proof. unfold upto. apply FinFun.Injective_map_NoDup; [intros a b H; lia|apply seq_NoDup]. Qed.
Lemma upto_succ n : 0 <= n -> upto (n + 1) = upto n ++ [n].
Proof. intros H. unfold upto. replace (Z.to_nat (n + 1)) with (S (Z.to_nat n)) by lia. rewrite seq_S, map_app. cbn. rewrite Z2Nat.id by lia. reflexivity. Qed.
Lemma seq_offset n : forall a o, map Z.of_nat (seq (a + o) n) = map (fun k => Z.of_nat a + Z.of_nat k) (seq o n).
Proof. induction n as [|n IH]; intros a o; cbn; [reflexivity|]. f_equal; [lia|]. rewrite <- IH, Nat.add_succ_r. reflexivity. Qed.
Lemma upto_plus a b : 0 <= a -> 0 <= b -> upto (a + b) = upto a ++ map (fun k => a + k) (upto b).
Proof.
  intros Ha Hb. unfold upto. replace (Z.to_nat (a + b)) with (Z.to_nat a + Z.to_nat b)%nat by lia.
  rewrite seq_app, map_app. f_equal. rewrite map_map. cbn [Nat.add].
  pose proof (seq_offset (Z.to_nat b) (Z.to_nat a) 0) as H. rewrite Nat.add_0_r in H. rewrite H. rewrite Z2Nat.id by lia. reflexivity.
Qed.
Lemma upto_mul c n : 0 <= c -> 0 <= n -> flat_map (fun j => map (fun k => c * j + k) (upto c)) (upto n) = upto (c * n).
Proof.
  intros Hc Hn. rewrite <- (Z2Nat.id n Hn). clear Hn. induction (Z.to_nat n) as [|m IH].
  - rewrite Z.mul_0_r. reflexivity.
  - replace (Z.of_nat (S m)) with (Z.of_nat m + 1) by lia. rewrite upto_succ by lia. rewrite flat_map_app, IH.
    replace (c * (Z.of_nat m + 1)) with (c * Z.of_nat m + c) by lia. rewrite upto_plus by lia. cbn. rewrite app_nil_r. reflexivity.
Qed.
Lemma map_flat_map {A B C} (f : B -> C) (g : A -> list B) l : map f (flat_map g l) = flat_map (fun a => map f (g a)) l.
Proof. induction l; cbn; [reflexivity|]. rewrite map_app, IHl. reflexivity. Qed.
Lemma flat_map_flat_map {A B C} (f : B -> list C) (g : A -> list B) l : flat_map f (flat_map g l) = flat_map (fun a => flat_map f (g a)) l.
Proof. induction l; cbn; [reflexivity|]. rewrite flat_map_app, IHl. reflexivity. Qed.
Lemma flat_map_map {A B C} (f : B -> list C) (g : A -> B) l : flat_map f (map g l) = flat_map (fun a => f (g a)) l.
Proof. induction l; cbn; [reflexivity|]. rewrite IHl. reflexivity. Qed.
Lemma flat_map_ext_all {A B} (f g : A -> list B) l : (forall a, f a = g a) -> flat_map f l = flat_map g l.
Proof. intros H. induction l; cbn; [reflexivity|]. rewrite H, IHl. reflexivity. Qed.

Lemma all_slots_upto : all_slots = upto (MAX_ENTRY * (MAX_COL * MAX_ROW)).
Proof.
  unfold all_slots. rewrite <- upto_mul by (unfold MAX_ENTRY, MAX_COL, MAX_ROW; lia).
  rewrite <- (upto_mul MAX_COL MAX_ROW) by (unfold MAX_COL, MAX_ROW; lia). rewrite flat_map_flat_map.
  apply flat_map_ext_all. intros i. rewrite flat_map_map. apply flat_map_ext_all. intros j.
  apply map_ext. intros k. unfold slot. lia.
Qed.
Lemma all_slots_in s : In s all_slots <-> 0 <= s < 3072.
Proof. rewrite all_slots_upto, upto_in. unfold MAX_ENTRY, MAX_COL, MAX_ROW. lia. Qed.
Lemma all_slots_nodup : NoDup all_slots.
Proof. rewrite all_slots_upto. apply upto_nodup. Qed.

Definition tbl (t : Z -> option node) : list node := flat_map (fun s => some_list (t s)) all_slots.
Global Arguments tbl : simpl never.
Global Arguments all_slots : simpl never.
Lemma get_table_tbl r : np_route_get_table r = tbl (table r).
Proof.
  unfold np_route_get_table, tbl, all_slots. rewrite flat_map_flat_map. apply flat_map_ext_all. intros i.
  rewrite flat_map_flat_map. apply flat_map_ext_all. intros j. rewrite flat_map_map. reflexivity.
Qed.
Lemma tbl_in t x : In x (tbl t) <-> exists s, 0 <= s < 3072 /\ t s = Some x.
Proof.
  unfold tbl. rewrite in_flat_map. split.
  - intros (s & Hs & Hx). exists s. rewrite all_slots_in in Hs. destruct (t s) as [y|]; cbn in Hx; [|tauto]. destruct Hx as [->|[]]. auto.
  - intros (s & Hs & E). exists s. rewrite all_slots_in, E. cbn. auto.
Qed.
Lemma tbl_length t : (length (tbl t) <= 3072)%nat.
Proof.
  unfold tbl. transitivity (length all_slots).
  - induction all_slots as [|s l IH]; cbn; [lia|]. rewrite app_length. destruct (t s); cbn; lia.
  - rewrite all_slots_upto. unfold upto. rewrite map_length, seq_length. unfold MAX_ENTRY, MAX_COL, MAX_ROW. lia.
Qed.
Lemma flat_set_out t s o l : ~ In s l -> flat_map (fun i => some_list (set_slot t s o i)) l = flat_map (fun i => some_list (t i)) l.
Proof.
  intros H. induction l as [|i l IH]; cbn; [reflexivity|]. rewrite IH by (intros C; apply H; right; exact C).
  unfold set_slot at 1. destruct (Z.eqb_spec i s) as [->|]; [exfalso; apply H; left; reflexivity|reflexivity].
Qed.
(** The list of the entries, as the entry of one slot and the rest *)
Lemma tbl_split t s : 0 <= s < 3072 -> exists rest, Permutation (tbl t) (some_list (t s) ++ rest) /\
  forall o, Permutation (tbl (set_slot t s o)) (some_list o ++ rest).
Proof.
  intros Hs. apply all_slots_in in Hs. destruct (in_split _ _ Hs) as (l1 & l2 & E).
  pose proof all_slots_nodup as D. rewrite E in D. apply NoDup_remove_2 in D. rewrite in_app_iff in D.
  exists (flat_map (fun i => some_list (t i)) (l1 ++ l2)). unfold tbl. rewrite E. split.
  - rewrite !flat_map_app. cbn [flat_map]. rewrite !app_assoc. apply Permutation_app_tail. apply Permutation_app_comm.
  - intros o. rewrite !flat_map_app. cbn [flat_map]. rewrite !flat_set_out by tauto.
    unfold set_slot. rewrite Z.eqb_refl. rewrite !app_assoc. apply Permutation_app_tail. apply Permutation_app_comm.
Qed.

(** ** The place of a key *)
Lemma hexdigit_inj a b : 0 <= a < 16 -> 0 <= b < 16 -> hexdigit a = hexdigit b -> a = b.
Proof. unfold hexdigit. intros Ha Hb H. destruct (a <? 10) eqn:?, (b <? 10) eqn:?; lia. Qed.
Lemma shared_lt me k : wf_key me -> wf_key k -> me <> k -> (shared me k < 64)%nat.
Proof.
  intros Hm Hk N. destruct (C06_index_laws me k Hm Hk) as (R & F & _). rewrite index_spec in R, F by auto. fold (shared me k) in R, F.
  assert (Z.of_nat (shared me k) <> 64) by (intros C; apply N; apply F; exact C). lia.
Qed.
Lemma first_slot_spec me k : wf_key me -> wf_key k -> me <> k ->
  exists j, first_slot me k = Ok (slot (Z.of_nat (shared me k)) j 0) /\ 0 <= j < 16 /\ digit k (shared me k) = hexdigit j.
Proof.
  intros Hm Hk N. pose proof (shared_lt me k Hm Hk N) as L. unfold first_slot. rewrite index_spec by auto. fold (shared me k).
  destruct (hexalpha_spec k (Z.of_nat (shared me k)) Hk ltac:(lia)) as (j & E & R & D).
  exists j. rewrite E. replace (Z.of_nat (shared me k) <? MAX_ROW) with true by (unfold MAX_ROW; lia).
  rewrite Nat2Z.id in D. auto.
Qed.
Lemma slot_inj i j e i' j' e' : 0 <= j < 16 -> 0 <= j' < 16 -> 0 <= e < 3 -> 0 <= e' < 3 -> slot i j e = slot i' j' e' -> i = i' /\ j = j' /\ e = e'.
Proof. unfold slot, MAX_ENTRY, MAX_COL. lia. Qed.
Lemma slot_range i j e : 0 <= i < 64 -> 0 <= j < 16 -> 0 <= e < 3 -> 0 <= slot i j e < 3072.
Proof. unfold slot, MAX_ENTRY, MAX_COL. lia. Qed.

(** The slots for a key *)
Definition slots_of (b : Z) : list Z := map (fun k => b + k) (upto MAX_ENTRY).
Lemma slots_of_eq b : slots_of b = [b + 0; b + 1; b + 2].
Proof. reflexivity. Qed.
Lemma slots_of_in b s : In s (slots_of b) <-> b <= s < b + 3.
Proof. rewrite slots_of_eq. cbn. lia. Qed.
Lemma slots_of_slot i j s : In s (slots_of (slot i j 0)) -> exists e, 0 <= e < 3 /\ s = slot i j e.
Proof. rewrite slots_of_in. intros H. exists (s - slot i j 0). unfold slot in *. lia. Qed.

(** Invariant: every entry is at its place *)
Definition placed (me : key) (t : Z -> option node) : Prop :=
  forall s x, t s = Some x -> wf_key (fst x) /\ fst x <> me /\
    exists j e, s = slot (Z.of_nat (shared me (fst x))) j e /\ 0 <= j < 16 /\ 0 <= e < 3 /\ digit (fst x) (shared me (fst x)) = hexdigit j.
Lemma placed_range me t s x : wf_key me -> placed me t -> t s = Some x -> 0 <= s < 3072.
Proof.
  intros Hm P E. destruct (P s x E) as (W & N & j & e & -> & Rj & Re & _). apply slot_range; auto.
  pose proof (shared_lt me (fst x) Hm W (fun C => N (eq_sym C))). lia.
Qed.
Lemma placed_slots me t s x k j : placed me t -> t s = Some x -> 0 <= j < 16 -> digit k (shared me k) = hexdigit j ->
  (In s (slots_of (slot (Z.of_nat (shared me k)) j 0)) <-> rival me k x = true).
Proof.
  intros P E Rj D. destruct (P s x E) as (W & N & j' & e & Es & Rj' & Re & D'). unfold rival. rewrite andb_true_iff, Nat.eqb_eq, Z.eqb_eq. split.
  - intros H. apply slots_of_slot in H. destruct H as (e' & Re' & E'). rewrite Es in E'. apply slot_inj in E'; auto.
    destruct E' as (Ei & -> & _). apply Nat2Z.inj in Ei. split; [exact Ei|]. rewrite D', D. reflexivity.
  - intros [H1 H2]. rewrite H1 in Es. rewrite D', D in H2. apply hexdigit_inj in H2; auto. subst j'.
    rewrite Es. rewrite slots_of_in. unfold slot. lia.
Qed.
Lemma placed_set me t s n j : wf_key me -> placed me t -> wf_key (fst n) -> fst n <> me -> 0 <= j < 16 -> digit (fst n) (shared me (fst n)) = hexdigit j ->
  In s (slots_of (slot (Z.of_nat (shared me (fst n))) j 0)) -> placed me (set_slot t s (Some n)).
Proof.
  intros Hm P W N Rj D Hs i x. unfold set_slot. destruct (Z.eqb_spec i s) as [->|]; [|apply P].
  intros H. assert (n = x) by (injection H; auto). subst x. split; [exact W|]. split; [exact N|].
  apply slots_of_slot in Hs. destruct Hs as (e & Re & ->). exists j, e. auto.
Qed.
Lemma placed_unset me t s : placed me t -> placed me (set_slot t s None).
Proof. intros P i x. unfold set_slot. destruct (i =? s); [discriminate|apply P]. Qed.

(** ** The loops *)
Lemma join_scan_spec t lat (n : node) slots : Forall (fun s => forall x, t s = Some x -> wf_key (fst x)) slots -> wf_key (fst n) ->
  forall (slowest : option (Z * node)) (seen : list Z),
  match slowest with
  | None => seen = []
  | Some (p, y) => In p seen /\ t p = Some y
  end -> (forall s, In s seen -> exists x : node, t s = Some x /\ fst x <> fst n /\ match slowest with Some (_, y) => lat (snd x) <= lat (snd y) | None => True end) ->
  match join_scan t lat n slots slowest with
  | Free s => In s slots /\ t s = None
  | Present => exists s x, In s slots /\ t s = Some x /\ fst x = fst n
  | Full None => seen ++ slots = []
  | Full (Some (p, y)) => In p (seen ++ slots) /\ t p = Some y /\
      forall s, In s (seen ++ slots) -> exists x, t s = Some x /\ fst x <> fst n /\ lat (snd x) <= lat (snd y)
  end.
Proof.
  intros F W. induction slots as [|s slots IH]; intros slowest seen Hs Hn.
  - cbn [join_scan]. rewrite app_nil_r. destruct slowest as [[p y]|]; [|exact Hs]. destruct Hs as [H1 H2]. auto.
  - cbn [join_scan]. inversion F as [|? ? F1 F2]; subst. specialize (IH F2).
    destruct (t s) as [x|] eqn:E; [|split; [left; reflexivity|exact E]].
    specialize (F1 x eq_refl). destruct (np_dhkey_equal (fst x) (fst n)) eqn:Q.
    + apply equal_spec in Q; auto. exists s, x. split; [left; reflexivity|]. auto.
    + assert (N : fst x <> fst n) by (intros C; apply equal_spec in C; auto; congruence).
      assert (K : forall slowest', match slowest' with None => False | Some (p, y) => In p (seen ++ [s]) /\ t p = Some y end ->
        (forall s0, In s0 (seen ++ [s]) -> exists x0, t s0 = Some x0 /\ fst x0 <> fst n /\ match slowest' with Some (_, y) => lat (snd x0) <= lat (snd y) | None => True end) ->
        match join_scan t lat n slots slowest' with
        | Free s0 => In s0 (s :: slots) /\ t s0 = None
        | Present => exists s0 x0, In s0 (s :: slots) /\ t s0 = Some x0 /\ fst x0 = fst n
        | Full None => seen ++ s :: slots = []
        | Full (Some (p, y)) => In p (seen ++ s :: slots) /\ t p = Some y /\
            forall s0, In s0 (seen ++ s :: slots) -> exists x0, t s0 = Some x0 /\ fst x0 <> fst n /\ lat (snd x0) <= lat (snd y)
        end).
      { intros sl A B. specialize (IH sl (seen ++ [s])). replace (seen ++ s :: slots) with ((seen ++ [s]) ++ slots) by (rewrite <- app_assoc; reflexivity).
        destruct sl as [[p y]|]; [|tauto]. specialize (IH A B). destruct (join_scan t lat n slots (Some (p, y))) as [s0| |[[p0 y0]|]].
        - destruct IH as [I1 I2]. split; [right; exact I1|exact I2].
        - destruct IH as (s0 & x0 & I1 & I2). exists s0, x0. split; [right; exact I1|exact I2].
        - exact IH.
        - exact IH. }
      destruct slowest as [[p y]|].
      * destruct Hs as [H1 H2]. destruct (Z.gtb_spec (lat (snd x)) (lat (snd y))).
        -- apply K.
           ++ rewrite in_app_iff. split; [right; left; reflexivity|exact E].
           ++ intros s0 H0. apply in_app_iff in H0. destruct H0 as [H0|[<-|[]]].
              ** destruct (Hn s0 H0) as (x0 & A1 & A2 & A3). exists x0. split; [exact A1|]. split; [exact A2|lia].
              ** exists x. split; [exact E|]. split; [exact N|lia].
        -- apply K.
           ++ rewrite in_app_iff. auto.
           ++ intros s0 H0. apply in_app_iff in H0. destruct H0 as [H0|[<-|[]]]; [auto|].
              exists x. split; [exact E|]. split; [exact N|lia].
      * subst seen. apply K.
        -- split; [left; reflexivity|exact E].
        -- intros s0 [<-|[]]. exists x. split; [exact E|]. split; [exact N|lia].
Qed.

Lemma leave_scan_spec t k slots : Forall (fun s => forall x, t s = Some x -> wf_key (fst x)) slots -> wf_key k ->
  match leave_scan t k slots with
  | Some s => In s slots /\ exists x, t s = Some x /\ fst x = k
  | None => forall s x, In s slots -> t s = Some x -> fst x <> k
  end.
Proof.
  intros F W. induction slots as [|s slots IH]; cbn [leave_scan]; [intros s x []|].
  inversion F as [|? ? F1 F2]; subst. specialize (IH F2).
  assert (K : (forall x, t s = Some x -> fst x <> k) -> match leave_scan t k slots with
    | Some s0 => In s0 (s :: slots) /\ (exists x, t s0 = Some x /\ fst x = k)
    | None => forall s0 x, In s0 (s :: slots) -> t s0 = Some x -> fst x <> k end).
  { intros N. destruct (leave_scan t k slots) as [s0|]; [destruct IH; split; [right|]; auto|].
    intros s0 x [<-|H] E; [exact (N x E)|exact (IH s0 x H E)]. }
  destruct (t s) as [x|] eqn:E.
  - destruct (np_dhkey_equal (fst x) k) eqn:Q.
    + apply equal_spec in Q; auto. split; [left; reflexivity|]. exists x. auto.
    + apply K. intros y Hy. assert (x = y) by (injection Hy; auto). subst y. intros C. apply equal_spec in C; auto. congruence.
  - apply K. discriminate.
Qed.

(** ** One update: what it does to the table *)
Definition same_rest (r r' : route) : Prop :=
  my r' = my r /\ left r' = left r /\ right r' = right r /\ leafset_size r' = leafset_size r /\ lrange r' = lrange r /\ rrange r' = rrange r /\
  left_count r' = left_count r /\ right_count r' = right_count r /\ in_leafset r' = in_leafset r.


Lemma bucket t me k j : wf_key me -> wf_key k -> me <> k -> placed me t -> 0 <= j < 16 -> digit k (shared me k) = hexdigit j ->
  filter (rival me k) (tbl t) = flat_map (fun s => some_list (t s)) (slots_of (slot (Z.of_nat (shared me k)) j 0)).
Proof.
  intros Hm Hk N P Rj D. set (b := slot (Z.of_nat (shared me k)) j 0).
  pose proof (shared_lt me k Hm Hk N) as L.
  assert (Rb : 0 <= b /\ b + 3 <= 3072) by (unfold b, slot, MAX_ENTRY, MAX_COL; lia).
  assert (E : all_slots = upto b ++ slots_of b ++ map (fun s => b + 3 + s) (upto (3072 - (b + 3)))).
  { rewrite all_slots_upto. replace (MAX_ENTRY * (MAX_COL * MAX_ROW)) with ((b + 3) + (3072 - (b + 3))) by (unfold MAX_ENTRY, MAX_COL, MAX_ROW; lia).
    rewrite (upto_plus (b + 3)) by lia. rewrite (upto_plus b 3) by lia. rewrite <- app_assoc. reflexivity. }
  unfold tbl. rewrite E, !flat_map_app, !filter_app.
  assert (O : forall l, (forall s, In s l -> ~ In s (slots_of b)) -> filter (rival me k) (flat_map (fun s => some_list (t s)) l) = []).
  { intros l. induction l as [|s l IH]; intros H; [reflexivity|]. cbn [flat_map]. rewrite filter_app, IH by (intros s0 H0; apply H; right; exact H0).
    destruct (t s) as [x|] eqn:Es; [|reflexivity]. cbn. destruct (rival me k x) eqn:Q; [|reflexivity].
    exfalso. apply (H s (or_introl eq_refl)). apply (placed_slots me t s x k j P Es Rj D). exact Q. }
  rewrite (O (upto b)), (O (map (fun s => b + 3 + s) (upto (3072 - (b + 3))))).
  - rewrite app_nil_r. cbn [app]. assert (I : forall l, (forall s, In s l -> In s (slots_of b)) -> filter (rival me k) (flat_map (fun s => some_list (t s)) l) = flat_map (fun s => some_list (t s)) l).
    { intros l. induction l as [|s l IH]; intros H; [reflexivity|]. cbn [flat_map]. rewrite filter_app, IH by (intros s0 H0; apply H; right; exact H0).
      f_equal. destruct (t s) as [x|] eqn:Es; [|reflexivity]. cbn.
      assert (Q : rival me k x = true) by (apply (placed_slots me t s x k j P Es Rj D); apply H; left; reflexivity). rewrite Q. reflexivity. }
    apply I. auto.
  - intros s Hs. rewrite in_map_iff in Hs. destruct Hs as (u & <- & Hu). rewrite upto_in in Hu. rewrite slots_of_in. lia.
  - intros s Hs. rewrite upto_in in Hs. rewrite slots_of_in. lia.
Qed.

(** Invariant of the table part *)
Definition Inv (r : route) : Prop :=
  wf_key (my r) /\ placed (my r) (table r) /\ route_count r = Z.of_nat (length (np_route_get_table r)).

Lemma slots_wf me t l : placed me t -> Forall (fun s => forall x, t s = Some x -> wf_key (fst x)) l.
Proof. intros P. apply Forall_forall. intros s _ x E. exact (proj1 (P s x E)). Qed.
Lemma u16_small x : 0 <= x < 65536 -> u16 x = x.
Proof. intros H. unfold u16. apply Z.mod_small. exact H. Qed.

Lemma update_spec r (n : node) joined lat : Inv r -> wf_key (fst n) ->
  exists r' d a, np_route_update r n joined lat = Ok (r', d, a) /\ Inv r' /\ same_rest r r' /\
    table_effect (my r) lat n joined (np_route_get_table r) (np_route_get_table r') d a /\
    (forall o, in_route r' o = in_route r o + (match a with Some x => if o =? snd x then 1 else 0 | None => 0 end)
                                            - (match d with Some x => if o =? snd x then 1 else 0 | None => 0 end)).
Proof.
  intros HI W. pose proof HI as (Hm & P & C). unfold np_route_update.
  assert (Z0 : forall o, in_route r o = in_route r o + 0 - 0) by (intros o; lia).
  assert (SR : same_rest r r) by (repeat split).
  destruct (np_dhkey_equal (my r) (fst n)) eqn:Q.
  { apply equal_spec in Q; auto. exists r, None, None. split; [reflexivity|]. split; [exact HI|]. split; [exact SR|].
    split; [apply TOwn; auto|exact Z0]. }
  assert (N : my r <> fst n) by (intros E; apply equal_spec in E; auto; congruence).
  destruct (first_slot_spec (my r) (fst n) Hm W N) as (j & E & Rj & D). rewrite E. cbn [obind].
  set (b := slot (Z.of_nat (shared (my r) (fst n))) j 0) in *. change (map (fun k => b + k) (upto MAX_ENTRY)) with (slots_of b).
  assert (Rb : forall s, In s (slots_of b) -> 0 <= s < 3072).
  { intros s Hs. apply slots_of_slot in Hs. destruct Hs as (e & Re & ->). apply slot_range; auto. pose proof (shared_lt _ _ Hm W N). lia. }
  pose proof (bucket (table r) (my r) (fst n) j Hm W N P Rj D) as B. fold b in B.
  pose proof (tbl_length (table r)) as TL. rewrite get_table_tbl in C.
  destruct joined.
  - pose proof (join_scan_spec (table r) lat n (slots_of b) (slots_wf _ _ _ P) W None (@nil Z) eq_refl ltac:(intros s [])) as J.
    cbn [app] in J. destruct (join_scan (table r) lat n (slots_of b) None) as [s| |[[p x]|]].
    + destruct J as [Hs Es]. destruct (tbl_split (table r) s (Rb s Hs)) as (rest & P1 & P2). rewrite Es in P1. cbn in P1.
      specialize (P2 (Some n)). cbn in P2.
      eexists _, _, _. split; [reflexivity|]. split; [|split; [repeat split|split]].
      * split; [exact Hm|]. split; [apply placed_set with (j := j); auto|].
        rewrite get_table_tbl. cbn [with_table table route_count my]. apply Permutation_length in P1, P2. cbn [length] in P2.
        rewrite C, u16_small by lia. lia.
      * rewrite !get_table_tbl. cbn [with_table table]. apply TFree.
        -- rewrite B. rewrite slots_of_eq in Hs |- *. cbn [flat_map]. cbn [In] in Hs.
           destruct Hs as [<-|[<-|[<-|[]]]]; rewrite Es; rewrite ?app_length; cbn; [destruct (table r (b + 1)), (table r (b + 2))|destruct (table r (b + 0)), (table r (b + 2))|destruct (table r (b + 0)), (table r (b + 1))]; cbn; lia.
        -- rewrite P2, P1. apply Permutation_refl.
      * intros o. cbn [with_table in_route]. unfold ref. destruct (o =? snd n); lia.
    + destruct J as (s & x & Hs & Es & Ex). exists r, None, None. split; [reflexivity|]. split; [exact HI|].
      split; [exact SR|]. split; [|exact Z0]. apply TPresent with x; [|exact Ex]. rewrite get_table_tbl. apply tbl_in. exists s. auto.
    + destruct J as (Hp & Ep & Hall).
      assert (LB : length (filter (rival (my r) (fst n)) (tbl (table r))) = 3%nat).
      { rewrite B, slots_of_eq. cbn [flat_map]. rewrite slots_of_eq in Hall.
        destruct (Hall (b + 0)) as (x0 & -> & _); [cbn; auto|]. destruct (Hall (b + 1)) as (x1 & -> & _); [cbn; auto|].
        destruct (Hall (b + 2)) as (x2 & -> & _); [cbn; auto|]. reflexivity. }
      assert (IB : forall y, In y (filter (rival (my r) (fst n)) (tbl (table r))) -> fst y <> fst n /\ lat (snd y) <= lat (snd x)).
      { intros y Hy. rewrite B in Hy. apply in_flat_map in Hy. destruct Hy as (s & Hs & Hy). destruct (Hall s Hs) as (z & Ez & A1 & A2).
        rewrite Ez in Hy. destruct Hy as [<-|[]]. auto. }
      assert (IX : In x (filter (rival (my r) (fst n)) (tbl (table r)))).
      { rewrite B. apply in_flat_map. exists p. split; [exact Hp|]. rewrite Ep. left. reflexivity. }
      destruct (Z.gtb_spec (lat (snd x) - lat (snd n)) reasonable) as [G|G]; change reasonable with noticeable in G.
      * destruct (tbl_split (table r) p (Rb p Hp)) as (rest & P1 & P2). rewrite Ep in P1. cbn in P1. specialize (P2 (Some n)). cbn in P2.
        eexists _, _, _. split; [reflexivity|]. split; [|split; [repeat split|split]].
        -- split; [exact Hm|]. split; [apply placed_set with (j := j); auto|].
           rewrite get_table_tbl. cbn [with_table table route_count my]. apply Permutation_length in P1, P2. cbn [length] in P1, P2.
           rewrite C, (u16_small (_ + 1)) by lia. rewrite u16_small by lia. lia.
        -- rewrite !get_table_tbl. cbn [with_table table]. apply TReplace with rest; auto.
           ++ apply IB. exact IX.
           ++ intros y Hy. apply IB. exact Hy.
        -- intros o. cbn [with_table in_route]. unfold ref. destruct (o =? snd n), (o =? snd x); lia.
      * exists r, None, None. split; [reflexivity|]. split; [exact HI|].
        split; [exact SR|]. split; [|exact Z0]. rewrite get_table_tbl. apply TFull; auto.
        intros y Hy. destruct (IB y Hy) as [A1 A2]. split; [exact A1|]. lia.
    + rewrite slots_of_eq in J. discriminate.
  - pose proof (leave_scan_spec (table r) (fst n) (slots_of b) (slots_wf _ _ _ P) W) as J.
    destruct (leave_scan (table r) (fst n) (slots_of b)) as [s|].
    + destruct J as (Hs & x & Es & Ex). destruct (tbl_split (table r) s (Rb s Hs)) as (rest & P1 & P2). rewrite Es in P1. cbn in P1.
      specialize (P2 None). cbn in P2.
      eexists _, _, _. split; [reflexivity|]. split; [|split; [repeat split|split]].
      * split; [exact Hm|]. split; [apply placed_unset; auto|].
        rewrite get_table_tbl. cbn [with_table table route_count my]. apply Permutation_length in P1, P2. cbn [length] in P1.
        rewrite C, u16_small by lia. lia.
      * rewrite !get_table_tbl. cbn [with_table table]. apply TLeave with x rest; auto.
      * intros o. cbn [with_table in_route]. unfold ref. destruct (o =? snd n); lia.
    + exists r, None, None. split; [reflexivity|]. split; [exact HI|].
      split; [exact SR|]. split; [|exact Z0]. apply TGone. intros x Hx Ex. rewrite get_table_tbl in Hx. apply tbl_in in Hx.
      destruct Hx as (s & Rs & Es). apply (J s x); auto. apply (placed_slots (my r) (table r) s x (fst n) j P Es Rj D).
      unfold rival. rewrite Ex, Nat.eqb_refl, Z.eqb_refl. reflexivity.
Qed.

Lemma tbl_empty : tbl (fun _ => None) = [].
Proof. unfold tbl. induction all_slots; cbn; auto. Qed.
Lemma init_inv me size : wf_key me -> Inv (np_route_init me size).
Proof.
  intros H. split; [exact H|]. split; [intros s x E; discriminate|]. rewrite get_table_tbl. cbn [np_route_init table]. rewrite tbl_empty. reflexivity.
Qed.
