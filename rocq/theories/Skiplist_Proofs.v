From Verif Require Import Base Lists_Spec Lists_Proofs Skiplist_Model Skiplist_Spec.

Lemma chain_sorted_tail {B} (R : B -> B -> Prop) p v q : StronglySorted R (p ++ v :: q) -> StronglySorted R q.
Proof. induction p as [|a p IH]; cbn; intros S; inversion S; subst; auto. Qed.

Lemma go_down_SS {A} r (m : nat -> option (@snode A)) u : go_down (S (S r)) m u =
  obind (nxt m u r) (fun a => obind (nxt m u (S r)) (fun b => if Nat.eqb a b then go_down (S r) m u else Ok (S r))).
Proof. reflexivity. Qed.
Lemma add_down_SS {A} r (m : nat -> option (@snode A)) u stack : add_down (S (S r)) m u stack =
  obind (nxt m u r) (fun a => obind (nxt m u (S r)) (fun b =>
    if Nat.eqb a b then add_down (S r) m u (upd stack (S r) u) else Ok (S r, upd stack (S r) u))).
Proof. reflexivity. Qed.
Lemma rem_down_SS {A} r (m : nat -> option (@snode A)) u comp rem : rem_down (S (S r)) m u comp rem =
  obind (nxt m u (S r)) (fun n =>
  obind (if negb (Nat.eqb n 0) && (comp =? 0)
         then obind (nxt m n (S r)) (fun f => obind (set_nxt m u (S r) f) (fun m1 => Ok (m1, Some n)))
         else Ok (m, rem)) (fun '(m1, rem1) =>
  obind (nxt m1 u r) (fun a => obind (nxt m1 u (S r)) (fun b =>
    if Nat.eqb a b then rem_down (S r) m1 u comp rem1 else Ok (S r, m1, rem1))))).
Proof. reflexivity. Qed.

Lemma nth_repeat_lt {B} (x d : B) n j : (j < n)%nat -> nth j (repeat x n) d = x.
Proof. revert j. induction n as [|n IH]; intros [|j] H; cbn; auto; try lia. apply IH. lia. Qed.

Section SP.
  Context {A : Type}.
  Variable cmp : A -> A -> Z.
  Hypothesis C : comparator cmp.

  Record entry := mkE { ea : nat; ev : option A; eh : nat }.
  Notation smemT := (nat -> option (@snode A)).

  Definition tall (i : nat) (e : entry) : bool := (i <? eh e)%nat.
  Arguments tall : simpl never.
  Definition haddr (l : list entry) : nat := match l with [] => 0%nat | e :: _ => ea e end.
  Definition links (i : nat) (l : list entry) : nat := haddr (filter (tall i) l).

  (** memory holds the entries; on level i the successor of an entry with [rest] after it is [f i rest] *)
  Fixpoint chainf (f : nat -> list entry -> nat) (m : smemT) (l : list entry) : Prop :=
    match l with
    | [] => True
    | e :: rest => m (ea e) = Some (mkSn (ev e) (map (fun i => f i rest) (seq 0 (eh e)))) /\ chainf f m rest
    end.

  Definition elt (e f : entry) : Prop :=
    match ev e, ev f with None, Some _ => True | Some x, Some y => cmp x y < 0 | _, _ => False end.
  Definition smaller (x : A) (e : entry) : Prop := match ev e with None => True | Some y => cmp y x < 0 end.

  Record wfl (full : list entry) : Prop := {
    wf_nd : NoDup (map ea full);
    wf_nz : forall e, In e full -> ea e <> 0%nat;
    wf_sorted : StronglySorted elt full;
    wf_root : exists root L, full = root :: L /\ ea root = ROOT /\ ev root = None /\
                (forall e, In e L -> (1 <= eh e <= eh root)%nat /\ ev e <> None)
  }.

  (* ---- orders ---- *)
  Lemma lt_trans' x y z : cmp x y < 0 -> cmp y z < 0 -> cmp x z < 0.
  Proof.
    intros H1 H2. assert (cmp x z <= 0) by (apply (cmp_trans cmp C) with y; lia).
    destruct (Z.eq_dec (cmp x z) 0); [|lia]. exfalso.
    assert (cmp z x <= 0). { pose proof (cmp_anti cmp C x z). pose proof (cmp_anti cmp C z x). lia. }
    assert (cmp y x <= 0) by (apply (cmp_trans cmp C) with z; lia). pose proof (cmp_anti cmp C x y). lia.
  Qed.
  Lemma lt_le_trans' x y z : cmp x y < 0 -> cmp y z <= 0 -> cmp x z < 0.
  Proof.
    intros H1 H2. assert (cmp x z <= 0) by (apply (cmp_trans cmp C) with y; lia).
    destruct (Z.eq_dec (cmp x z) 0); [|lia]. exfalso.
    assert (cmp z x <= 0). { pose proof (cmp_anti cmp C x z). pose proof (cmp_anti cmp C z x). lia. }
    assert (cmp y x <= 0) by (apply (cmp_trans cmp C) with z; lia). pose proof (cmp_anti cmp C x y). lia.
  Qed.
  Lemma smaller_down x e f : elt e f -> smaller x f -> smaller x e.
  Proof.
    unfold elt, smaller. destruct (ev e) as [y|], (ev f) as [z|]; auto; try tauto. intros. eapply lt_trans'; eauto.
  Qed.

  Lemma chainf_at f m pre e rest : chainf f m (pre ++ e :: rest) ->
    m (ea e) = Some (mkSn (ev e) (map (fun i => f i rest) (seq 0 (eh e)))).
  Proof. induction pre as [|p pre IH]; cbn; intros H; [apply H|apply IH, H]. Qed.
  Lemma chainf_tail f m pre rest : chainf f m (pre ++ rest) -> chainf f m rest.
  Proof. induction pre; cbn; auto. intros [_ H]; auto. Qed.

  Lemma nth_tower (f : nat -> list entry -> nat) rest h i d : (i < h)%nat -> nth i (map (fun j => f j rest) (seq 0 h)) d = f i rest.
  Proof.
    intros H. rewrite (nth_indep _ d (f 0%nat rest)) by (rewrite map_length, seq_length; auto).
    rewrite (map_nth (fun j => f j rest)). rewrite seq_nth by auto. auto.
  Qed.
  Lemma nxt_at f m pre e rest i : chainf f m (pre ++ e :: rest) -> (i < eh e)%nat -> nxt m (ea e) i = Ok (f i rest).
  Proof.
    intros H Hi. unfold nxt, sget. rewrite (chainf_at f m pre e rest H). cbn [obind nodes].
    rewrite map_length, seq_length. rewrite (proj2 (Nat.ltb_lt _ _) Hi). rewrite nth_tower; auto.
  Qed.

  (** the split at the first entry of a level *)
  Lemma links_split i l : filter (tall i) l = [] \/
    exists mid e rest, l = mid ++ e :: rest /\ tall i e = true /\ filter (tall i) mid = [] /\ filter (tall i) l = e :: filter (tall i) rest.
  Proof.
    induction l as [|a l IH]; auto. cbn [filter]. destruct (tall i a) eqn:E.
    - right. exists [], a, l. auto.
    - destruct IH as [IH|(mid & e & rest & -> & He & Hm & Hf)]; auto. right. exists (a :: mid), e, rest. cbn. rewrite E. auto.
  Qed.

  (* ---- comp tracking ---- *)
  Definition comp_ok (x : A) (r : nat) (rest : list entry) (comp : Z) : Prop :=
    match filter (tall r) rest with
    | [] => comp < 0
    | f :: _ => match ev f with Some y => comp = cmp y x /\ 0 <= comp | None => False end
    end.

  Lemma filter_nil_mono i j (l : list entry) : (i <= j)%nat -> filter (tall i) l = [] -> filter (tall j) l = [].
  Proof.
    intros H. induction l as [|a l IH]; cbn; auto. unfold tall in *. destruct (Nat.ltb_spec i (eh a)); [discriminate|].
    intros Hf. destruct (Nat.ltb_spec j (eh a)); [lia|]. auto.
  Qed.

  Lemma go_right_ok f m x i full : wfl full -> chainf f m full -> (forall l, f i l = links i l) ->
    forall rest fuel pre u comp, full = pre ++ u :: rest -> (i < eh u)%nat -> (length rest < fuel)%nat ->
      smaller x u -> (filter (tall i) rest = [] -> comp < 0) ->
      exists pre' u' rest' c, go_right cmp fuel m x i (ea u) comp = Ok (ea u', c) /\
        full = pre' ++ u' :: rest' /\ (length rest' <= length rest)%nat /\ (i < eh u')%nat /\ smaller x u' /\ comp_ok x i rest' c.
  Proof.
    intros W H Hf. intros rest. remember (length rest) as n. revert rest Heqn.
    induction n as [n IH] using lt_wf_ind; intros rest En fuel pre u comp Efull Hi Hfuel Hs Hc.
    destruct fuel as [|fuel]; [lia|]. cbn [go_right]. rewrite Efull in H.
    rewrite (nxt_at f m pre u rest i H Hi). cbn [obind]. rewrite Hf.
    destruct (links_split i rest) as [E|(mid & e & rest' & Er & Ht & Hm & Hl)].
    - unfold links. rewrite E. cbn [haddr Nat.eqb]. exists pre, u, rest, comp. split; auto. split; auto. split; [lia|]. split; auto. split; auto.
      unfold comp_ok. rewrite E. auto.
    - unfold links. rewrite Hl. cbn [haddr].
      assert (Hin : In e full) by (rewrite Efull, Er; apply in_or_app; right; right; apply in_or_app; right; left; auto).
      rewrite (proj2 (Nat.eqb_neq _ _) (wf_nz full W e Hin)).
      assert (Hev : exists y, ev e = Some y).
      { destruct (wf_root full W) as (root & L & E0 & _ & _ & HL).
        assert (In e L).
        { rewrite E0 in Efull. destruct pre as [|p pre]; cbn in Efull; injection Efull as -> ->; rewrite Er; apply in_or_app; right; [left; auto|].
          right. apply in_or_app; right; left; auto. }
        destruct (HL e H0) as [_ Hne]. destruct (ev e); [eauto|congruence]. }
      destruct Hev as [y Hy]. subst rest. assert (Hpos : pre ++ u :: mid ++ e :: rest' = (pre ++ u :: mid) ++ e :: rest') by (rewrite <- app_assoc; reflexivity).
      rewrite Hpos in H.
      assert (Hie : item_of m (ea e) = Ok y).
      { unfold item_of, sget. rewrite (chainf_at f m (pre ++ u :: mid) e rest'); auto. cbn. rewrite Hy. auto. }
      rewrite Hie. cbn [obind]. destruct (Z.ltb_spec (cmp y x) 0).
      + rewrite Hpos in Efull. rewrite app_length in En. cbn in En.
        destruct (IH (length rest')) with (rest := rest') (fuel := fuel) (pre := pre ++ u :: mid) (u := e) (comp := cmp y x)
          as (pre2 & u2 & rest2 & c & E2 & Ef2 & Ln & Hi2 & S2 & C2); auto; try lia.
        * unfold tall in Ht. apply Nat.ltb_lt in Ht. auto.
        * unfold smaller. rewrite Hy. auto.
        * exists pre2, u2, rest2, c. split; auto. split; auto. split; [lia|]. auto.
      + exists pre, u, (mid ++ e :: rest'), (cmp y x). split; auto. split; auto. split; [lia|]. split; auto. split; auto.
        unfold comp_ok. rewrite Hl, Hy. split; auto; lia.
  Qed.

  Lemma addr_inj full e f : NoDup (map ea full) -> In e full -> In f full -> ea e = ea f -> e = f.
  Proof.
    induction full as [|a full IH]; cbn; [tauto|]. intros N [->|He] [->|Hf] E; auto; inversion N; subst.
    - exfalso. apply H1. rewrite E. apply in_map; auto.
    - exfalso. apply H1. rewrite <- E. apply in_map; auto.
    - apply IH; auto.
  Qed.
  Lemma links_eq_hd full pre u rest i j : wfl full -> full = pre ++ u :: rest -> links i rest = links j rest ->
    hd_error (filter (tall i) rest) = hd_error (filter (tall j) rest).
  Proof.
    intros W E H. unfold links in H.
    assert (In1 : forall k e l, filter (tall k) rest = e :: l -> In e full).
    { intros k e l Hk. rewrite E. apply in_or_app; right; right. apply (filter_In (tall k) e rest). rewrite Hk. left; auto. }
    destruct (filter (tall i) rest) as [|e l1] eqn:E1, (filter (tall j) rest) as [|f l2] eqn:E2; cbn in *; auto.
    - exfalso. apply (wf_nz full W f); auto. eapply In1; eauto.
    - exfalso. apply (wf_nz full W e); auto. eapply In1; eauto.
    - f_equal. eapply addr_inj; [apply (wf_nd full W)| | |exact H]; eapply In1; eauto.
  Qed.
  Lemma comp_ok_hd x i j rest c : hd_error (filter (tall i) rest) = hd_error (filter (tall j) rest) -> comp_ok x j rest c -> comp_ok x i rest c.
  Proof. unfold comp_ok. destruct (filter (tall i) rest), (filter (tall j) rest); cbn; try discriminate; auto. intros [= ->]. auto. Qed.

  Lemma go_down_ok m x full pre u rest c : wfl full -> chainf links m full -> full = pre ++ u :: rest ->
    forall r, (0 < r <= eh u)%nat -> comp_ok x (r - 1) rest c ->
    exists r', go_down r m (ea u) = Ok r' /\ (r' < r)%nat /\ comp_ok x r' rest c.
  Proof.
    intros W H E. induction r as [|[|r] IH]; intros Hr Hc; [lia| |].
    - exists 0%nat. cbn. split; auto.
    - rewrite go_down_SS. replace (S (S r) - 1)%nat with (S r) in Hc by lia. rewrite E in H.
      rewrite (nxt_at links m pre u rest r H) by lia. rewrite (nxt_at links m pre u rest (S r) H) by lia. cbn [obind].
      rewrite <- E in H.
      destruct (Nat.eqb_spec (links r rest) (links (S r) rest)) as [El|El].
      + destruct IH as (r' & E' & L' & C'); [lia| |exists r'; split; [exact E'|split; [lia|exact C']]].
        replace (S r - 1)%nat with r by lia. apply comp_ok_hd with (S r); auto. eapply links_eq_hd; eauto.
      + exists (S r). split; auto.
  Qed.

  (* ---- find ---- *)
  Lemma find_loop_ok m x full : wfl full -> chainf links m full ->
    forall lv fuel r pre u rest comp, full = pre ++ u :: rest -> (r < lv)%nat -> (r <= eh u)%nat -> (length full < fuel)%nat ->
      smaller x u -> comp_ok x r rest comp ->
      exists pre' u' rest' c, find_loop cmp lv fuel m x r (ea u) comp = Ok (ea u', c) /\
        full = pre' ++ u' :: rest' /\ smaller x u' /\ comp_ok x 0 rest' c.
  Proof.
    intros W H. induction lv as [|lv IH]; intros fuel r pre u rest comp E Hlv Hr Hfu Hs Hc; [lia|].
    cbn [find_loop]. destruct r as [|r].
    - cbn. exists pre, u, rest, comp. auto.
    - cbn [Nat.eqb]. replace (S r - 1)%nat with r by lia.
      destruct (go_right_ok links m x r full W H (fun _ => eq_refl) rest fuel pre u comp E)
        as (pre1 & u1 & rest1 & c1 & E1 & Ef1 & L1 & Hi1 & S1 & C1); auto.
      + rewrite E, app_length in Hfu. cbn in Hfu. lia.
      + intros Hn. unfold comp_ok in Hc. rewrite (filter_nil_mono r (S r)) in Hc by auto. auto.
      + rewrite E1. cbn [obind].
        destruct (go_down_ok m x full pre1 u1 rest1 c1 W H Ef1 (S r)) as (r' & E2 & L2 & C2); [lia|replace (S r - 1)%nat with r by lia; auto|].
        rewrite E2. cbn [obind]. apply (IH fuel r' pre1 u1 rest1 c1); auto; lia.
  Qed.

  Definition vals (L : list entry) : list A := flat_map (fun e => match ev e with Some y => [y] | None => [] end) L.

  Definition skip_holds (s : @skip A) (full : list entry) : Prop :=
    wfl full /\ chainf links (smem s) full /\ num s = Z.of_nat (length (tl full)).

  Lemma root_height m full : wfl full -> chainf links m full -> exists root L, full = root :: L /\ ea root = ROOT /\
    ev root = None /\ height m ROOT = eh root /\ (forall e, In e L -> (1 <= eh e <= eh root)%nat /\ ev e <> None).
  Proof.
    intros W H. destruct (wf_root full W) as (root & L & -> & E1 & E2 & HL). exists root, L. repeat split; auto; try (apply HL; auto).
    unfold height. cbn in H. destruct H as [H _]. rewrite E1 in H. rewrite H. cbn. rewrite map_length, seq_length. auto.
  Qed.

  Lemma tall0_all full pre u rest : wfl full -> full = pre ++ u :: rest -> filter (tall 0) rest = rest.
  Proof.
    intros W E. destruct (wf_root full W) as (root & L & E0 & _ & _ & HL).
    assert (Hin : forall e, In e rest -> In e L).
    { intros e He. rewrite E0 in E. destruct pre; cbn in E; injection E as -> ->; auto. apply in_or_app; right; right; auto. }
    assert (Hh : forall e, In e rest -> tall 0 e = true).
    { intros e He. destruct (HL e (Hin e He)) as [Hb _]. unfold tall. apply Nat.ltb_lt. lia. }
    clear -Hh. induction rest as [|a l IH]; cbn; auto. rewrite (Hh a (or_introl eq_refl)). f_equal. apply IH. intros; apply Hh; right; auto.
  Qed.

  Lemma sorted_app_lt pre rest : StronglySorted elt (pre ++ rest) -> forall e f, In e pre -> In f rest -> elt e f.
  Proof.
    induction pre as [|a pre IH]; cbn; [tauto|]. intros S. inversion S as [|? ? S' F]; subst. rewrite Forall_forall in F.
    intros e f [->|He] Hf; [apply F; apply in_or_app; auto|apply IH; auto].
  Qed.

  (** everything up to [u] is smaller *)
  Lemma passed_smaller x full pre u rest : wfl full -> full = pre ++ u :: rest -> smaller x u ->
    forall e, In e (pre ++ [u]) -> smaller x e.
  Proof.
    intros W E Hs e He. apply in_app_or in He. destruct He as [He|[<-|[]]]; auto.
    apply smaller_down with u; auto. pose proof (wf_sorted full W) as S. rewrite E in S.
    eapply sorted_app_lt; eauto. left; auto.
  Qed.

  Lemma vals_app l1 l2 : vals (l1 ++ l2) = vals l1 ++ vals l2.
  Proof. unfold vals. apply flat_map_app. Qed.
  Lemma vals_smaller x l : (forall e, In e l -> smaller x e) -> find (fun y => 0 <=? cmp y x) (vals l) = None.
  Proof.
    induction l as [|e l IH]; intros H; cbn; auto. assert (Hs : smaller x e) by (apply H; left; auto). unfold smaller in Hs.
    destruct (ev e) as [y|]; cbn [app find]; [|apply IH; intros; apply H; right; auto].
    destruct (Z.leb_spec 0 (cmp y x)); [lia|]. apply IH. intros; apply H; right; auto.
  Qed.
  Lemma find_app' {B} (p : B -> bool) l1 l2 : find p l1 = None -> find p (l1 ++ l2) = find p l2.
  Proof. induction l1 as [|a l IH]; cbn; auto. destruct (p a); [discriminate|auto]. Qed.

  Lemma skip_find_ok fuel s full x : skip_holds s full -> (length full < fuel)%nat ->
    skip_find cmp fuel s x = Ok (match find (fun y => 0 <=? cmp y x) (vals full) with
                                 | Some y => (cmp y x =? 0, Some y) | None => (false, Some x) end).
  Proof.
    intros (W & H & _) Hf. unfold skip_find. destruct (root_height _ _ W H) as (root & L & E0 & Er & Ev & Hh & HL).
    rewrite Hh. rewrite <- Er at 1.
    assert (Hend : filter (tall (eh root)) L = []).
    { clear -HL. induction L as [|a L IH]; cbn; auto. destruct (HL a (or_introl eq_refl)) as [Hb _]. unfold tall.
      destruct (Nat.ltb_spec (eh root) (eh a)); [lia|]. apply IH. intros; apply HL; right; auto. }
    destruct (find_loop_ok (smem s) x full W H (S (eh root)) fuel (eh root) [] root L (-1)) as (pre & u & rest & c & E & Ef & Hs & Hc); auto.
    - unfold smaller. rewrite Ev. auto.
    - unfold comp_ok. rewrite Hend. lia.
    - rewrite E. cbn [obind]. unfold comp_ok in Hc. rewrite (tall0_all full pre u rest W Ef) in Hc.
      assert (Hhu : (0 < eh u)%nat \/ full = [root] /\ u = root).
      { rewrite E0 in Ef. destruct pre as [|p pre]; cbn in Ef; injection Ef as -> ->.
        - destruct rest as [|e rest]; auto. left. destruct (HL e (or_introl eq_refl)). lia.
        - left. destruct (HL u); [apply in_or_app; right; left; auto|]. lia. }
      assert (Hfull : full = (pre ++ [u]) ++ rest) by (rewrite <- app_assoc; auto).
      assert (Hfd : find (fun y => 0 <=? cmp y x) (vals full) = find (fun y => 0 <=? cmp y x) (vals rest)).
      { rewrite Hfull, vals_app. apply find_app'. apply vals_smaller. eapply passed_smaller; eauto. }
      rewrite Hfd. rewrite Ef in H. pose proof (chainf_at _ _ _ _ _ H) as Hmu.
      assert (Hhm : height (smem s) (ea u) = eh u) by (unfold height; rewrite Hmu; cbn; rewrite map_length, seq_length; auto).
      rewrite Hhm. destruct rest as [|e rest].
      + cbn. replace (0 <=? c) with false by lia. auto.
      + assert (Hev : exists y, ev e = Some y) by (destruct (ev e); [eauto|destruct Hc]).
        destruct Hev as [y Hy]. rewrite Hy in Hc. destruct Hc as [-> Hc].
        destruct Hhu as [Hhu|[Hx _]].
        2: { exfalso. rewrite Hx in Ef. apply (f_equal (@length entry)) in Ef. rewrite app_length in Ef. cbn in Ef. lia. }
        replace (0 <=? cmp y x) with true by lia. rewrite (proj2 (Nat.ltb_lt _ _) Hhu). cbn [andb].
        rewrite (nxt_at links (smem s) pre u (e :: rest) 0 H Hhu). cbn [obind].
        unfold links. rewrite (tall0_all full pre u (e :: rest) W Ef). cbn [haddr].
        assert (ea e <> 0%nat). { apply (wf_nz full W). rewrite Ef. apply in_or_app; right; right; left; auto. }
        rewrite (proj2 (Nat.eqb_neq _ _) H0). cbn [negb].
        assert (Hme : smem s (ea e) = Some (mkSn (ev e) (map (fun i => links i rest) (seq 0 (eh e))))).
        { apply (chainf_at links (smem s) (pre ++ [u]) e rest). rewrite <- app_assoc. auto. }
        unfold sget. rewrite Hme. cbn [obind item vals flat_map]. rewrite Hy. cbn [app find].
        replace (0 <=? cmp y x) with true by lia. auto.
  Qed.

  (* ---- add ---- *)
  (** [q] is the last entry of l (on the way to x) that is tall at level j *)
  Definition is_pred (x : A) (full : list entry) (j q : nat) : Prop :=
    exists pre u rest, full = pre ++ u :: rest /\ ea u = q /\ (j < eh u)%nat /\ smaller x u /\
      match filter (tall j) rest with [] => True | f :: _ => match ev f with Some y => 0 < cmp y x | None => False end end.

  Lemma add_down_ok m x full pre u rest c : wfl full -> chainf links m full -> full = pre ++ u :: rest -> smaller x u ->
    forall r stack, (0 < r <= eh u)%nat -> comp_ok x (r - 1) rest c -> (links (r - 1) rest <> 0%nat -> c <> 0) ->
    (r <= length stack)%nat ->
    exists r' st, add_down r m (ea u) stack = Ok (r', st) /\ (r' < r)%nat /\ length st = length stack /\
      (forall j, (r' <= j < r)%nat -> is_pred x full j (nth j st 0%nat)) /\
      (forall j, (r <= j)%nat -> nth j st 0%nat = nth j stack 0%nat).
  Proof.
    intros W H E Hs.
    assert (Pr : forall j, (j < eh u)%nat -> comp_ok x j rest c -> (links j rest <> 0%nat -> c <> 0) -> is_pred x full j (ea u)).
    { intros j Hj Hc Hn. exists pre, u, rest. split; auto. split; auto. split; auto. split; auto.
      unfold comp_ok, links in *. destruct (filter (tall j) rest) as [|f l] eqn:Ef; auto. destruct (ev f) as [y|]; [|tauto].
      cbn in Hn. assert (ea f <> 0%nat).
      { apply (wf_nz full W). rewrite E. apply in_or_app; right; right. apply (filter_In (tall j) f rest). rewrite Ef. left; auto. }
      specialize (Hn H0). lia. }
    induction r as [|r IH]; intros stack Hr Hc Hn Hl; [lia|].
    replace (S r - 1)%nat with r in Hc, Hn by lia.
    destruct r as [|r].
    - cbn [add_down]. exists 0%nat, (upd stack 0 (ea u)). split; auto. split; auto. split; [apply upd_length|]. split.
      + intros j Hj. replace j with 0%nat by lia. rewrite upd_nth_eq by lia. apply Pr; auto; lia.
      + intros j Hj. rewrite upd_nth_neq; auto. lia.
    - rewrite add_down_SS. rewrite E in H. rewrite (nxt_at links m pre u rest r H) by lia. rewrite (nxt_at links m pre u rest (S r) H) by lia. cbn [obind].
      rewrite <- E in H.
      destruct (Nat.eqb_spec (links r rest) (links (S r) rest)) as [El|El].
      + destruct (IH (upd stack (S r) (ea u))) as (r' & st & E' & L' & Ln & P & Q).
        * lia.
        * replace (S r - 1)%nat with r by lia. apply comp_ok_hd with (S r); auto. eapply links_eq_hd; eauto.
        * replace (S r - 1)%nat with r by lia. rewrite El. auto.
        * rewrite upd_length. lia.
        * exists r', st. split; auto. split; [lia|]. split; [rewrite Ln; apply upd_length|]. split.
          -- intros j Hj. destruct (Nat.eq_dec j (S r)) as [->|].
             ++ rewrite Q by lia. rewrite upd_nth_eq by lia. apply Pr; auto; lia.
             ++ apply P. lia.
          -- intros j Hj. rewrite Q by lia. apply upd_nth_neq. lia.
      + exists (S r), (upd stack (S r) (ea u)). split; auto. split; [lia|]. split; [apply upd_length|]. split.
        * intros j Hj. replace j with (S r) by lia. rewrite upd_nth_eq by lia. apply Pr; auto; lia.
        * intros j Hj. rewrite upd_nth_neq; auto. lia.
  Qed.

  Definition mem_x (x : A) (full : list entry) : bool := existsb (fun e => match ev e with Some y => cmp y x =? 0 | None => false end) full.

  Lemma add_loop_ok m x full : wfl full -> chainf links m full ->
    forall lv fuel r pre u rest stack, full = pre ++ u :: rest -> (r < lv)%nat -> (r <= eh u)%nat -> (length full < fuel)%nat ->
      smaller x u -> (r <= length stack)%nat ->
      (exists cc, comp_ok x r rest cc /\ cc <> 0) ->
      exists o, add_loop cmp lv fuel m x r (ea u) stack = Ok o /\
        match o with
        | Some st => (r = 0%nat \/ mem_x x full = false) /\ length st = length stack /\
                     (forall j, (j < r)%nat -> is_pred x full j (nth j st 0%nat)) /\ (forall j, (r <= j)%nat -> nth j st 0%nat = nth j stack 0%nat)
        | None => mem_x x full = true
        end.
  Proof.
    intros W H. induction lv as [|lv IH]; intros fuel r pre u rest stack E Hlv Hr Hfu Hs Hl (cc & Hcc & Hcn); [lia|].
    cbn [add_loop]. destruct r as [|r].
    - cbn. exists (Some stack). split; auto. split; auto. split; auto. split; auto. intros; lia.
    - cbn [Nat.eqb]. replace (S r - 1)%nat with r by lia.
      (* run the search with comp = cc to track, comp's start value is irrelevant unless the successor is NULL *)
      assert (G : exists pre1 u1 rest1 c1, go_right cmp fuel m x r (ea u) 0 = Ok (ea u1, c1) /\
        full = pre1 ++ u1 :: rest1 /\ (r < eh u1)%nat /\ smaller x u1 /\ (links r rest1 <> 0%nat -> comp_ok x r rest1 c1)
        /\ (links r rest1 = 0%nat -> comp_ok x r rest1 (-1))).
      { destruct fuel as [|fuel]; [lia|].
        destruct (links_split r rest) as [En|(mid & e & rest' & Er & Ht & Hm & Hll)].
        - exists pre, u, rest, 0. cbn [go_right]. rewrite E in H. rewrite (nxt_at links m pre u rest r H) by lia. cbn [obind].
          unfold links. rewrite En. cbn. split; auto. split; auto. split; [lia|]. split; auto. split; [congruence|].
          intros _. unfold comp_ok. rewrite En. lia.
        - destruct (go_right_ok links m x r full W H (fun _ => eq_refl) rest (S fuel) pre u 0 E)
            as (pre1 & u1 & rest1 & c1 & E1 & Ef1 & L1 & Hi1 & S1 & C1); auto.
          + rewrite E, app_length in Hfu. cbn in Hfu. lia.
          + intros Hx. rewrite Hx in Hll. discriminate.
          + exists pre1, u1, rest1, c1. split; auto. split; auto. split; auto. split; auto. split; auto.
            intros Hz. unfold comp_ok, links in *. destruct (filter (tall r) rest1) as [|f l] eqn:Ef; [lia|].
            exfalso. cbn in Hz. apply (wf_nz full W f); auto. rewrite Ef1. apply in_or_app; right; right.
            apply (filter_In (tall r) f rest1). rewrite Ef. left; auto. }
      destruct G as (pre1 & u1 & rest1 & c1 & E1 & Ef1 & Hi1 & S1 & C1 & C1').
      rewrite E1. cbn [obind]. pose proof H as H0. rewrite Ef1 in H0. rewrite (nxt_at links m pre1 u1 rest1 r H0) by lia. cbn [obind].
      destruct (negb (Nat.eqb (links r rest1) 0) && (c1 =? 0)) eqn:Ed.
      + exists None. split; auto. apply andb_true_iff in Ed. destruct Ed as [Hn Hz].
        assert (links r rest1 <> 0%nat) by (destruct (Nat.eqb_spec (links r rest1) 0); [discriminate|auto]).
        specialize (C1 H1). unfold comp_ok, links in *. destruct (filter (tall r) rest1) as [|f l] eqn:Ef; [cbn in H1; congruence|].
        unfold mem_x. apply existsb_exists. exists f. split.
        * rewrite Ef1. apply in_or_app; right; right. apply (filter_In (tall r) f rest1). rewrite Ef. left; auto.
        * destruct (ev f); [|tauto]. destruct C1 as [-> _]. auto.
      + assert (Hcx : exists c2, comp_ok x r rest1 c2 /\ c2 <> 0).
        { destruct (Nat.eq_dec (links r rest1) 0) as [Hz|Hz].
          - exists (-1). split; auto. lia.
          - exists c1. split; auto. rewrite (proj2 (Nat.eqb_neq _ _) Hz) in Ed. cbn in Ed. lia. }
        destruct Hcx as (c2 & Hc2 & Hn2).
        destruct (add_down_ok m x full pre1 u1 rest1 c2 W H Ef1 S1 (S r) stack) as (r' & st & E2 & L2 & Ln2 & P2 & Q2); auto.
        { lia. } { replace (S r - 1)%nat with r by lia. auto. }
        rewrite E2. cbn [obind].
        destruct (IH fuel r' pre1 u1 rest1 st) as (o & E3 & R3); auto; try lia.
        * exists c2. split; auto.
          (* comp_ok r' *)
          assert (Hgen : forall r, (0 < r <= eh u1)%nat -> comp_ok x (r - 1) rest1 c2 -> forall stack r' st, add_down r m (ea u1) stack = Ok (r', st) -> comp_ok x r' rest1 c2).
          { clear -W H0 Ef1. induction r as [|r IH]; intros Hr Hc stack r' st Ea; [lia|]. replace (S r - 1)%nat with r in Hc by lia.
            destruct r as [|r]; [injection Ea as <- _; auto|]. rewrite add_down_SS in Ea.
            rewrite (nxt_at links m pre1 u1 rest1 r H0) in Ea by lia. rewrite (nxt_at links m pre1 u1 rest1 (S r) H0) in Ea by lia. cbn [obind] in Ea.
            destruct (Nat.eqb_spec (links r rest1) (links (S r) rest1)) as [El|El].
            - eapply IH; [lia| |exact Ea]. replace (S r - 1)%nat with r by lia. apply comp_ok_hd with (S r); auto. eapply links_eq_hd; eauto.
            - injection Ea as <- _. auto. }
          eapply (Hgen (S r)); [lia| |exact E2]. replace (S r - 1)%nat with r by lia. auto.
        * exists o. split; auto. destruct o as [st'|]; auto. destruct R3 as (M3 & Ln3 & P3 & Q3). split.
          { right. destruct M3 as [M3|M3]; auto. subst r'. clear Q3 P3 E3.
            (* r' = 0: level 0 decided *)
            assert (P0 : is_pred x full 0 (nth 0 st 0%nat)) by (apply P2; lia).
            destruct P0 as (p & v & q & Ep & _ & _ & Sv & Hq). rewrite (tall0_all full p v q W Ep) in Hq.
            destruct (mem_x x full) eqn:Em; auto. exfalso. unfold mem_x in Em. apply existsb_exists in Em.
            destruct Em as (e & He & Hz). destruct (ev e) as [y|] eqn:Hy; [|discriminate]. apply Z.eqb_eq in Hz.
            rewrite Ep in He. replace (p ++ v :: q) with ((p ++ [v]) ++ q) in He by (rewrite <- app_assoc; auto).
            apply in_app_or in He. destruct He as [He|He].
            - pose proof (passed_smaller x full p v q W Ep Sv e He) as Hsm. unfold smaller in Hsm. rewrite Hy in Hsm. lia.
            - destruct q as [|f q]; [destruct He|]. destruct (ev f) as [z|] eqn:Hz'; [|tauto].
              destruct He as [->|He]; [rewrite Hy in Hz'; injection Hz' as ->; lia|].
              assert (elt f e). { pose proof (wf_sorted full W) as Sx. rewrite Ep in Sx. apply (chain_sorted_tail elt p v) in Sx. inversion Sx; subst. rewrite Forall_forall in H4. auto. }
              unfold elt in H1. rewrite Hz', Hy in H1. assert (cmp z x < 0) by (apply lt_le_trans' with y; lia). lia. }
          split; [lia|]. split.
          -- intros j Hj. destruct (le_lt_dec r' j); [rewrite Q3 by auto; apply P2; lia|apply P3; auto].
          -- intros j Hj. rewrite Q3 by lia. apply Q2. lia.
  Qed.

  (* ---- pointwise form ---- *)
  Definition holdsf (f : nat -> list entry -> nat) (m : smemT) (full : list entry) : Prop :=
    forall pre p rest, full = pre ++ p :: rest -> m (ea p) = Some (mkSn (ev p) (map (fun i => f i rest) (seq 0 (eh p)))).
  Lemma chainf_holdsf f m full : chainf f m full <-> holdsf f m full.
  Proof.
    split.
    - intros H pre p rest ->. eapply chainf_at; eauto.
    - induction full as [|e full IH]; intros H; cbn; auto. split.
      + apply (H [] e full eq_refl).
      + apply IH. intros pre p rest ->. apply (H (e :: pre) p rest eq_refl).
  Qed.
  Lemma nxt_holdsf f m full pre e rest i : holdsf f m full -> full = pre ++ e :: rest -> (i < eh e)%nat -> nxt m (ea e) i = Ok (f i rest).
  Proof. intros H E Hi. apply chainf_holdsf in H. rewrite E in H. eapply nxt_at; eauto. Qed.

  Definition minus (t : nat) (l : list entry) : list entry := filter (fun e => negb (Nat.eqb (ea e) t)) l.
  Lemma minus_notin t l : (forall e, In e l -> ea e <> t) -> minus t l = l.
  Proof.
    induction l as [|a l IH]; cbn; auto. intros H. rewrite (proj2 (Nat.eqb_neq (ea a) t)) by (apply H; auto). cbn. f_equal. apply IH. intros; apply H; auto.
  Qed.
  Lemma minus_app t l1 l2 : minus t (l1 ++ l2) = minus t l1 ++ minus t l2.
  Proof. apply filter_app. Qed.
  Lemma minus_mid t l1 e l2 : NoDup (map ea (l1 ++ e :: l2)) -> ea e = t -> minus t (l1 ++ e :: l2) = l1 ++ l2.
  Proof.
    intros N E. rewrite map_app in N. cbn in N. apply NoDup_remove_2 in N. rewrite minus_app. cbn [minus filter].
    fold (minus t l2). rewrite E, Nat.eqb_refl. cbn [negb].
    rewrite !minus_notin; auto; intros f Hf Hx; apply N; apply in_or_app; [right|left]; rewrite E, <- Hx; apply in_map; auto.
  Qed.

  Lemma links_app i l1 l2 : links i (l1 ++ l2) = match filter (tall i) l1 with [] => links i l2 | f :: _ => ea f end.
  Proof. unfold links. rewrite filter_app. destruct (filter (tall i) l1); auto. Qed.

  Lemma links_tall i u l : (i < eh u)%nat -> links i (u :: l) = ea u.
  Proof. intros Hu. unfold links. cbn [filter]. unfold tall at 1. rewrite (proj2 (Nat.ltb_lt _ _) Hu). auto. Qed.

  Lemma links_minus_low t T i rest : (forall e, In e rest -> ea e = t -> e = T) -> (eh T <= i)%nat -> links i (minus t rest) = links i rest.
  Proof.
    intros H Hi. unfold links, minus. f_equal. induction rest as [|a l IH]; cbn [filter]; auto.
    assert (IH' : filter (tall i) (filter (fun e => negb (ea e =? t)%nat) l) = filter (tall i) l) by (apply IH; intros; apply H; auto; right; auto).
    destruct (Nat.eqb_spec (ea a) t) as [Ea|Ea]; cbn [negb filter].
    - rewrite IH'. rewrite (H a (or_introl eq_refl) Ea). unfold tall at 2. rewrite (proj2 (Nat.ltb_ge _ _) Hi). auto.
    - rewrite IH'. auto.
  Qed.

  (** positions: [u] is the level-i predecessor of [T] in [full] *)
  Definition pred_split (full : list entry) (T u : entry) (i : nat) (P R1 L2 : list entry) : Prop :=
    full = P ++ u :: R1 ++ T :: L2 /\ (i < eh u)%nat /\ filter (tall i) R1 = [].

  Lemma app_split_cases {B} (pre : list B) p rest P u Q : pre ++ p :: rest = P ++ u :: Q ->
    (exists Z, P = pre ++ p :: Z /\ rest = Z ++ u :: Q) \/ (pre = P /\ p = u /\ rest = Q) \/ (exists Z, pre = P ++ u :: Z /\ Q = Z ++ p :: rest).
  Proof.
    revert P. induction pre as [|a pre IH]; intros [|b P] E; cbn in E; injection E as -> E.
    - auto.
    - left. exists P. auto.
    - right; right. exists pre. subst. auto.
    - destruct (IH P E) as [(Z & -> & ->)|[(-> & -> & ->)|(Z & -> & ->)]]; [left; exists Z; auto|auto|right; right; exists Z; auto].
  Qed.

  Lemma links_minus_other full T u i P R1 L2 : NoDup (map ea full) -> pred_split full T u i P R1 L2 ->
    forall pre p rest, full = pre ++ p :: rest -> p <> u -> (i < eh p)%nat -> links i (minus (ea T) rest) = links i rest.
  Proof.
    intros N (E & Hu & Hf) pre p rest Ep Hp Hi. rewrite Ep in E.
    assert (Nu : forall e, In e (R1 ++ T :: L2) -> ea e <> ea u).
    { rewrite Ep, E in N. rewrite map_app in N. cbn in N. apply NoDup_remove_2 in N. intros e He Hx. apply N. apply in_or_app; right. rewrite <- Hx. apply in_map; auto. }
    assert (Nt : forall e, In e L2 -> ea e <> ea T).
    { rewrite Ep, E in N. replace (P ++ u :: R1 ++ T :: L2) with ((P ++ u :: R1) ++ T :: L2) in N by (rewrite <- app_assoc; auto).
      rewrite map_app in N. cbn in N. apply NoDup_remove_2 in N. intros e He Hx. apply N. apply in_or_app; right. rewrite <- Hx. apply in_map; auto. }
    destruct (app_split_cases _ _ _ _ _ _ E) as [(Z & -> & ->)|[(-> & -> & ->)|(Z & -> & EQ)]]; [|congruence|].
    - (* p before u *)
      rewrite minus_app. cbn [minus filter]. fold (minus (ea T) (R1 ++ T :: L2)).
      rewrite (proj2 (Nat.eqb_neq (ea u) (ea T))); [|intros Hx; apply (Nu T); auto; apply in_or_app; right; left; auto]. cbn [negb].
      rewrite (minus_notin (ea T) Z).
      + rewrite !links_app. destruct (filter (tall i) Z); auto. rewrite !links_tall by auto. auto.
      + intros e He Hx. rewrite Ep, E in N. replace ((pre ++ p :: Z) ++ u :: R1 ++ T :: L2) with (((pre ++ p :: Z) ++ u :: R1) ++ T :: L2) in N by (rewrite <- !app_assoc; auto).
        rewrite map_app in N. cbn in N. apply NoDup_remove_2 in N. apply N. apply in_or_app; left. rewrite <- Hx. apply in_map.
        apply in_or_app; left. apply in_or_app; right; right; auto.
    - (* p after u *)
      destruct (app_split_cases _ _ _ _ _ _ (eq_sym EQ)) as [(Z2 & -> & ->)|[(-> & -> & ->)|(Z2 & -> & ->)]].
      + (* p in R1: R1 = Z ++ p :: Z2 *)
        exfalso. rewrite filter_app in Hf. apply app_eq_nil in Hf. destruct Hf as [_ Hf]. cbn [filter] in Hf.
        unfold tall at 1 in Hf. rewrite (proj2 (Nat.ltb_lt _ _) Hi) in Hf. discriminate.
      + rewrite minus_notin; auto.
      + rewrite minus_notin; auto. intros e He. apply Nt. apply in_or_app; right; right; auto.
  Qed.

  (** memory where levels below [r] see [a l] and levels from [r] on see [b l] *)
  Definition mixf (r : nat) (t : nat) (i : nat) (rest : list entry) : nat := links i (if (i <? r)%nat then rest else minus t rest).

  Lemma map_seq_ext (g h : nat -> nat) n : (forall i, (i < n)%nat -> g i = h i) -> map g (seq 0 n) = map h (seq 0 n).
  Proof. intros H. apply map_ext_in. intros i Hi. apply in_seq in Hi. apply H. lia. Qed.
  Lemma upd_map_seq (g : nat -> nat) n i x : upd (map g (seq 0 n)) i x = map (fun j => if Nat.eqb j i then x else g j) (seq 0 n).
  Proof.
    apply nth_ext with (d := 0%nat) (d' := 0%nat); [rewrite upd_length, !map_length; auto|].
    intros j Hj. rewrite upd_length, map_length, seq_length in Hj.
    assert (E : forall h : nat -> nat, nth j (map h (seq 0 n)) 0%nat = h j).
    { intros h. rewrite (nth_indep _ 0%nat (h 0%nat)) by (rewrite map_length, seq_length; auto). rewrite map_nth, seq_nth by auto. auto. }
    rewrite E. destruct (Nat.eqb_spec j i) as [->|Hn].
    - rewrite upd_nth_eq; auto. rewrite map_length, seq_length. auto.
    - rewrite upd_nth_neq by auto. apply E.
  Qed.

  (* ---- linking a new entry T = full position ---- *)
  Definition link_inv (full : list entry) (T : entry) (L2 : list entry) (i : nat) (m : smemT) : Prop :=
    (forall pre p rest, full = pre ++ p :: rest -> p <> T ->
       m (ea p) = Some (mkSn (ev p) (map (fun j => mixf i (ea T) j rest) (seq 0 (eh p))))) /\
    m (ea T) = Some (mkSn (ev T) (map (fun j => if (j <? i)%nat then links j L2 else 0%nat) (seq 0 (eh T)))).

  Lemma link_levels_ok full T L1 L2 stack : NoDup (map ea full) -> full = L1 ++ T :: L2 ->
    (forall j, (j < eh T)%nat -> exists u P R1, pred_split full T u j P R1 L2 /\ ea u = nth j stack 0%nat) ->
    forall n i m, (i + n = eh T)%nat -> link_inv full T L2 i m ->
    exists m', link_levels n i m (ea T) stack = Ok m' /\ link_inv full T L2 (eh T) m' /\
      (forall k, ~ In k (map ea full) -> m' k = m k).
  Proof.
    intros N EF Hst. induction n as [|n IH]; intros i m Hn Hinv.
    - replace (eh T) with i by lia. exists m. cbn. auto.
    - cbn [link_levels]. destruct (Hst i) as (u & P & R1 & Ps & Eu); [lia|]. rewrite <- Eu.
      pose proof Ps as (E & Hu & Hf). destruct Hinv as [I1 I2].
      assert (NuT : ea u <> ea T).
      { intros Hx. rewrite E in N. replace (P ++ u :: R1 ++ T :: L2) with ((P ++ u :: R1) ++ T :: L2) in N by (rewrite <- app_assoc; auto).
        rewrite map_app in N. cbn in N. apply NoDup_remove_2 in N. apply N. apply in_or_app; left. rewrite <- Hx. apply in_map. apply in_or_app; right; left; auto. }
      assert (uT : u <> T) by (intros ->; auto).
      pose proof (I1 P u (R1 ++ T :: L2) E uT) as Mu.
      assert (Hx1 : nxt m (ea u) i = Ok (links i L2)).
      { unfold nxt, sget. rewrite Mu. cbn [obind nodes]. rewrite map_length, seq_length, (proj2 (Nat.ltb_lt _ _) Hu).
        rewrite (nth_tower (mixf i (ea T)) (R1 ++ T :: L2)) by auto. unfold mixf. rewrite Nat.ltb_irrefl.
        assert (Hmm : minus (ea T) (R1 ++ T :: L2) = R1 ++ L2).
        { apply minus_mid; auto. rewrite E in N. rewrite map_app in N. cbn in N. apply NoDup_app_r in N. inversion N; auto. }
        rewrite Hmm, links_app, Hf. auto. }
      rewrite Hx1. cbn [obind]. unfold set_nxt, sget. rewrite I2. cbn [obind nodes item].
      rewrite map_length, seq_length. rewrite (proj2 (Nat.ltb_lt i (eh T))) by lia. cbn [obind].
      set (m1 := sset m (ea T) _). assert (M1u : m1 (ea u) = m (ea u)) by (unfold m1, sset; rewrite (proj2 (Nat.eqb_neq _ _) NuT); auto).
      rewrite M1u, Mu. cbn [obind nodes item]. rewrite map_length, seq_length, (proj2 (Nat.ltb_lt _ _) Hu). cbn [obind].
      set (m2 := sset m1 (ea u) _).
      destruct (IH (S i) m2) as (m' & E' & Inv' & F'); [lia| |].
      + split.
        * intros pre p rest Ep Hp. destruct (Nat.eq_dec (ea p) (ea u)) as [Ea|Ea].
          -- assert (p = u). { eapply addr_inj; eauto; [rewrite Ep|rewrite E]; apply in_or_app; right; left; auto. }
             subst p. assert (rest = R1 ++ T :: L2).
             { rewrite Ep in E. destruct (app_split_cases _ _ _ _ _ _ E) as [(Z & -> & ->)|[(_ & _ & ->)|(Z & -> & EQ)]]; auto; exfalso.
               - rewrite Ep in N. rewrite map_app in N. cbn in N. apply NoDup_remove_2 in N. apply N. apply in_or_app; right. apply in_map. apply in_or_app; right; left; auto.
               - rewrite Ep in N. rewrite map_app in N. cbn in N. apply NoDup_remove_2 in N. apply N. apply in_or_app; left. apply in_map. apply in_or_app; right; left; auto. }
             subst rest. unfold m2, sset. rewrite Nat.eqb_refl. do 2 f_equal. rewrite upd_map_seq. apply map_seq_ext. intros j Hj.
             unfold mixf. destruct (Nat.eqb_spec j i) as [->|Hji].
             ++ rewrite (proj2 (Nat.ltb_lt i (S i))) by lia. rewrite links_app, Hf. unfold links. cbn [filter].
                unfold tall. rewrite (proj2 (Nat.ltb_lt i (eh T))) by lia. auto.
             ++ destruct (Nat.ltb_spec j i), (Nat.ltb_spec j (S i)); try lia; auto.
          -- unfold m2, sset. rewrite (proj2 (Nat.eqb_neq _ _) Ea). unfold m1, sset.
             assert (ea p <> ea T).
             { intros Hx. apply Hp. eapply addr_inj; eauto; [rewrite Ep|rewrite EF]; apply in_or_app; right; left; auto. }
             rewrite (proj2 (Nat.eqb_neq _ _) H). rewrite (I1 pre p rest Ep Hp). do 2 f_equal. apply map_seq_ext. intros j Hj. unfold mixf.
             destruct (Nat.ltb_spec j i), (Nat.ltb_spec j (S i)); try lia; auto.
             replace j with i in * by lia. eapply links_minus_other; eauto. congruence.
        * unfold m2, sset. rewrite (proj2 (Nat.eqb_neq (ea T) (ea u))) by auto. unfold m1, sset. rewrite Nat.eqb_refl.
          do 2 f_equal. rewrite upd_map_seq. apply map_seq_ext. intros j Hj.
          destruct (Nat.eqb_spec j i) as [->|Hji]; [rewrite (proj2 (Nat.ltb_lt i (S i))) by lia; auto|].
          destruct (Nat.ltb_spec j i), (Nat.ltb_spec j (S i)); try lia; auto.
      + exists m'. split; auto. split; auto. intros k Hk. rewrite F' by auto. unfold m2, m1, sset.
        rewrite (proj2 (Nat.eqb_neq k (ea u))); [rewrite (proj2 (Nat.eqb_neq k (ea T))); auto|].
        * intros ->. apply Hk. rewrite EF. apply in_map. apply in_or_app; right; left; auto.
        * intros ->. apply Hk. rewrite E. apply in_map. apply in_or_app; right; left; auto.
  Qed.

  Lemma split_by x full : StronglySorted elt full -> exists L1 L2, full = L1 ++ L2 /\ (forall e, In e L1 -> smaller x e) /\
    (forall e, In e L2 -> match ev e with Some y => 0 <= cmp y x | None => False end).
  Proof.
    induction 1 as [|e l S IH F].
    - exists [], []. cbn. tauto.
    - destruct IH as (L1 & L2 & -> & H1 & H2).
      destruct (ev e) as [y|] eqn:Hy.
      + destruct (Z_lt_ge_dec (cmp y x) 0) as [Hl|Hg].
        * exists (e :: L1), L2. split; auto. split; auto. intros f [<-|Hf]; auto. unfold smaller. rewrite Hy. auto.
        * exists [], (e :: L1 ++ L2). split; auto. split; [intros ? []|]. intros f [<-|Hf]; [rewrite Hy; lia|].
          rewrite Forall_forall in F. specialize (F f Hf). unfold elt in F. rewrite Hy in F. destruct (ev f) as [z|]; [|tauto].
          destruct (Z_lt_ge_dec (cmp z x) 0); [|lia]. exfalso. pose proof (lt_trans' y z x F l). lia.
      + exists (e :: L1), L2. split; auto. split; auto. intros f [<-|Hf]; auto. unfold smaller. rewrite Hy. auto.
  Qed.

  Lemma is_pred_split x full L1 L2 j q T : wfl full -> full = L1 ++ L2 -> (forall e, In e L1 -> smaller x e) ->
    (forall e, In e L2 -> match ev e with Some y => 0 < cmp y x | None => False end) ->
    is_pred x full j q -> exists u P R1, pred_split (L1 ++ T :: L2) T u j P R1 L2 /\ ea u = q.
  Proof.
    intros W E H1 H2 (pre & u & rest & Ef & Eu & Hj & Hs & Hn).
    (* u is in L1 *)
    rewrite E in Ef. assert (exists Z, L1 = pre ++ u :: Z /\ rest = Z ++ L2) as (Z & EL & Er).
    { clear -Ef H2 Hs. revert L1 Ef. induction pre as [|a pre IH]; intros [|b L1] Ef; cbn in Ef.
      - exfalso. rewrite Ef in H2. specialize (H2 u (or_introl eq_refl)). unfold smaller in Hs. destruct (ev u); [lia|tauto].
      - injection Ef as -> <-. exists L1. auto.
      - exfalso. rewrite Ef in H2. assert (Hin : In u (a :: pre ++ u :: rest)) by (right; apply in_or_app; right; left; auto). specialize (H2 u Hin). unfold smaller in Hs. destruct (ev u); [lia|tauto].
      - injection Ef as -> Ef. destruct (IH L1 Ef) as (Z & -> & ->). exists Z. auto. }
    exists u, pre, Z. split; auto. split; [rewrite EL, <- app_assoc; auto|]. split; auto.
    rewrite Er in Hn. rewrite filter_app in Hn. destruct (filter (tall j) Z) as [|f l] eqn:EZ; auto. exfalso.
    assert (In f L1). { rewrite EL. apply in_or_app; right; right. apply (filter_In (tall j) f Z). rewrite EZ. left; auto. }
    specialize (H1 f H). unfold smaller in H1. cbn in Hn. destruct (ev f); [lia|tauto].
  Qed.
  Lemma mem_x_vals x full : mem_x x full = member cmp x (vals full).
  Proof.
    unfold mem_x, member, vals. induction full as [|e l IH]; cbn [existsb flat_map]; auto. rewrite existsb_app, <- IH.
    destruct (ev e); cbn; auto. rewrite orb_false_r. auto.
  Qed.

  Lemma sorted_insert x a k L1 L2 : StronglySorted elt (L1 ++ L2) -> (forall e, In e L1 -> smaller x e) ->
    (forall e, In e L2 -> match ev e with Some y => 0 < cmp y x | None => False end) -> StronglySorted elt (L1 ++ mkE a (Some x) k :: L2).
  Proof.
    intros S H1 H2. induction L1 as [|e L1 IH]; cbn in *.
    - constructor; auto. apply Forall_forall. intros f Hf. specialize (H2 f Hf). unfold elt. cbn. destruct (ev f); auto.
      pose proof (cmp_anti cmp C x a0). lia.
    - inversion S as [|? ? S' F]; subst. constructor; [apply IH; auto|]. rewrite Forall_forall in F. apply Forall_forall.
      intros f Hf. apply in_app_or in Hf. destruct Hf as [Hf|[<-|Hf]]; try (apply F; apply in_or_app; auto; fail).
      specialize (H1 e (or_introl eq_refl)). unfold smaller, elt in *. cbn. destruct (ev e); auto.
  Qed.

  Lemma skip_add_ok fuel s full x k a : skip_holds s full -> (length full < fuel)%nat -> (1 <= k)%nat -> a <> 0%nat -> smem s a = None ->
    exists b s', skip_add cmp fuel s x k a = Ok (b, s') /\
      if member cmp x (vals full) then b = false /\ s' = s
      else b = true /\ exists full', skip_holds s' full' /\ ascending cmp (vals full') /\ Permutation (vals full') (x :: vals full) /\
        map ea full' <> [] /\ (length full' = S (length full)).
  Proof.
    intros (W & H & Hnum) Hf Hk Ha Hfresh. unfold skip_add.
    destruct (root_height _ _ W H) as (root & L & E0 & Er & Ev & Hh & HL). rewrite Hh.
    pose proof (proj1 (chainf_holdsf links (smem s) full) H) as Hp.
    pose proof (Hp [] root L E0) as Mroot. rewrite Er in Mroot.
    unfold sget. rewrite Mroot. cbn [obind nodes item]. set (rn := map (fun i => links i L) (seq 0 (eh root))).
    assert (Lrn : length rn = eh root) by (unfold rn; rewrite map_length, seq_length; auto).
    assert (Hend : forall j, (eh root <= j)%nat -> filter (tall j) L = []).
    { intros j Hj. clear -HL Hj. induction L as [|b L IH]; cbn; auto. destruct (HL b (or_introl eq_refl)) as [Hb _]. unfold tall.
      destruct (Nat.ltb_spec j (eh b)); [lia|]. apply IH. intros; apply HL; right; auto. }
    rewrite <- Er.
    destruct (add_loop_ok (smem s) x full W H (S (eh root)) fuel (eh root) [] root L (rn ++ repeat 0%nat (k - eh root))) as (o & Eo & Ro); auto.
    - unfold smaller. rewrite Ev. auto.
    - rewrite app_length, Lrn. lia.
    - exists (-1). split; [|lia]. unfold comp_ok. rewrite Hend; auto. lia.
    - rewrite Eo. cbn [obind]. rewrite <- mem_x_vals. destruct o as [st|].
      + destruct Ro as (Hm & Lst & Pst & Qst).
        assert (Hmx : mem_x x full = false).
        { destruct Hm as [Hm|Hm]; auto. rewrite E0. unfold mem_x. cbn. rewrite Ev. cbn.
          assert (L = []). { destruct L as [|e L']; auto. destruct (HL e (or_introl eq_refl)). lia. } subst L. auto. }
        rewrite Hmx.
        (* the raised root *)
        set (root' := mkE ROOT None (Nat.max k (eh root))).
        set (fullr := root' :: L).
        assert (Wr : wfl fullr).
        { destruct W as [W1 W2 W3 W4]. rewrite E0 in *. constructor; cbn in *.
          - rewrite <- Er. auto.
          - intros e [<-|He]; [cbn; unfold ROOT; lia|apply W2; auto].
          - inversion W3 as [|? ? S' F]; subst. constructor; auto. rewrite Forall_forall in *. intros e He. specialize (F e He). unfold elt in *. rewrite Ev in F. cbn. auto.
          - exists root', L. repeat split; auto; destruct (HL e H0) as [Hb Hne]; cbn; try lia; auto. }
        destruct (split_by x fullr (wf_sorted _ Wr)) as (L1 & L2 & E12 & HL1 & HL2).
        assert (HL2' : forall e, In e L2 -> match ev e with Some y => 0 < cmp y x | None => False end).
        { intros e He. specialize (HL2 e He). destruct (ev e) as [y|] eqn:Hy; auto.
          assert (cmp y x <> 0); [|lia]. intros Hz. assert (In e full).
          { assert (In e fullr) by (rewrite E12; apply in_or_app; auto). rewrite E0. destruct H0 as [<-|He']; [discriminate Hy|right; auto]. }
          assert (mem_x x full = true); [|congruence]. unfold mem_x. apply existsb_exists. exists e. split; auto. rewrite Hy. lia. }
        set (T := mkE a (Some x) k). set (full' := L1 ++ T :: L2).
        assert (Na : ~ In a (map ea fullr)).
        { intros Hi. apply in_map_iff in Hi. destruct Hi as (e & Hea & He).
          assert (In a (map ea full)).
          { rewrite E0. destruct He as [<-|He]; [left; rewrite <- Hea; cbn; auto|right; rewrite <- Hea; apply in_map; auto]. }
          apply in_map_iff in H0. destruct H0 as (e' & He' & Hi'). apply in_split in Hi'. destruct Hi' as (p & q & Epq).
          pose proof (Hp p e' q Epq). rewrite He' in H0. congruence. }
        assert (N' : NoDup (map ea full')).
        { unfold full'. apply (Permutation_NoDup (l := a :: map ea (L1 ++ L2))).
          - rewrite !map_app. cbn. apply Permutation_middle.
          - rewrite <- E12. constructor; auto. apply (wf_nd _ Wr). }
        (* predecessor at every level below k *)
        set (st2 := firstn (eh root) st ++ (if (eh root <? k)%nat then repeat ROOT (k - eh root) else skipn (eh root) st)).
        assert (Hst : forall j, (j < k)%nat -> is_pred x fullr j (nth j st2 0%nat)).
        { intros j Hj. unfold st2. assert (Hl1 : length (firstn (eh root) st) = eh root) by (rewrite firstn_length, Lst, app_length, Lrn; lia).
          destruct (Nat.ltb_spec j (eh root)) as [Hjr|Hjr].
          - rewrite app_nth1 by lia.
            assert (En : nth j (firstn (eh root) st) 0%nat = nth j st 0%nat).
            { rewrite <- (firstn_skipn (eh root) st) at 2. rewrite app_nth1 by lia. auto. }
            rewrite En. destruct (Pst j Hjr) as (p & u & q & Ep & Eu & Hu & Su & Hq). rewrite E0 in Ep.
            destruct p as [|p0 p]; cbn in Ep; injection Ep as <- EL.
            + exists [], root', q. split; [unfold fullr; rewrite EL; auto|]. split; [cbn; rewrite <- Eu, Er; auto|]. split; [cbn; lia|].
              split; [cbn; auto|auto].
            + exists (root' :: p), u, q. split; [unfold fullr; rewrite EL; auto|]. auto.
          - rewrite app_nth2 by lia. rewrite (proj2 (Nat.ltb_lt (eh root) k)) by lia. rewrite Hl1, nth_repeat_lt by lia.
            exists [], root', L. split; auto. split; auto. split; [cbn; lia|]. split; [cbn; auto|]. rewrite Hend by auto. auto. }
        (* memory after raising the root *)
        set (m1 := sset (smem s) a (mkSn (Some x) (repeat 0%nat k))).
        set (m2 := if (eh root <? k)%nat then sset m1 ROOT (mkSn (ev root) (rn ++ repeat 0%nat (k - eh root))) else m1).
        assert (Ha1 : a <> ROOT) by (intros ->; apply Na; left; auto).
        assert (I0 : link_inv full' T L2 0 m2).
        { split.
          - intros pre p rest Ep Hpt. 
            assert (Hpr : exists pre', fullr = pre' ++ p :: minus a rest /\ (pre = [] -> pre' = [] \/ True)).
            { unfold full' in Ep. rewrite E12. destruct (app_split_cases _ _ _ _ _ _ (eq_sym Ep)) as [(Z & -> & ->)|[(-> & Hx & ->)|(Z & -> & ->)]].
              - exists pre. split; auto. rewrite <- app_assoc. cbn. do 2 f_equal. symmetry. apply minus_mid; auto.
                unfold full' in N'. rewrite <- app_assoc in N'. cbn in N'. rewrite map_app in N'. cbn in N'. apply NoDup_app_r in N'. inversion N'; auto.
              - congruence.
              - exists (L1 ++ Z). split; auto. rewrite <- app_assoc. do 3 f_equal. symmetry. apply minus_notin. intros e He Hx. apply Na.
                rewrite E12, <- Hx. apply in_map. apply in_or_app; right. apply in_or_app; right; right; auto. }
            destruct Hpr as (pre' & Epr & _).
            assert (Hmp : m2 (ea p) = Some (mkSn (ev p) (map (fun j => links j (minus a rest)) (seq 0 (eh p))))).
            { assert (Hpa : ea p <> a). { intros Hx. apply Na. rewrite Epr, <- Hx. apply in_map. apply in_or_app; right; left; auto. }
              unfold fullr in Epr. destruct pre' as [|r0 pre']; cbn in Epr; injection Epr as <- EL.
              - unfold m2. cbn [ea ev eh root']. rewrite <- EL. destruct (Nat.ltb_spec (eh root) k) as [Hlt|Hge].
                + unfold sset at 1. rewrite Nat.eqb_refl. rewrite Ev. do 2 f_equal. rewrite Nat.max_l by lia. unfold rn.
                  replace (seq 0 k) with (seq 0 (eh root) ++ seq (eh root) (k - eh root)) by (rewrite <- seq_app; f_equal; lia).
                  rewrite map_app. f_equal. clear -Hend. set (n := (k - eh root)%nat). clearbody n.
                  assert (G : forall b n, (eh root <= b)%nat -> repeat 0%nat n = map (fun j => links j L) (seq b n)).
                  { clear n. intros b n. revert b. induction n as [|n IH]; intros b Hb; cbn; auto. f_equal; [unfold links; rewrite Hend; auto|]. apply IH. lia. }
                  apply G. lia.
                + unfold m1, sset. rewrite (proj2 (Nat.eqb_neq ROOT a)) by auto. rewrite Mroot. rewrite Nat.max_r by lia. rewrite Ev. unfold rn. auto.
              - assert (Hpl : In p L) by (rewrite EL; apply in_or_app; right; left; auto).
                assert (Hpr : ea p <> ROOT).
                { intros Hx. destruct W as [W1 _ _ _]. rewrite E0 in W1. cbn in W1. inversion W1; subst. apply H2. rewrite Er, <- Hx. apply in_map; auto. }
                assert (Hm12 : m2 (ea p) = smem s (ea p)).
                { unfold m2. destruct (eh root <? k)%nat; unfold m1, sset; rewrite ?(proj2 (Nat.eqb_neq (ea p) ROOT)) by auto; rewrite (proj2 (Nat.eqb_neq (ea p) a)) by auto; auto. }
                rewrite Hm12. apply (Hp (root :: pre') p). rewrite E0, EL. auto. }
            rewrite Hmp. do 2 f_equal.
          - assert (m2 (ea T) = m1 a) by (unfold m2; change (ea T) with a; destruct (eh root <? k)%nat; auto; unfold sset at 1; rewrite (proj2 (Nat.eqb_neq a ROOT)) by auto; auto).
            rewrite H0. unfold m1, sset. rewrite Nat.eqb_refl. cbn. do 2 f_equal. clear.
            assert (G : forall n b, repeat 0%nat n = map (fun _ : nat => 0%nat) (seq b n)) by (induction n as [|n IH]; intros b; cbn; auto; f_equal; auto).
            apply G. }
        destruct (link_levels_ok full' T L1 L2 st2 N' eq_refl) with (n := k) (i := 0%nat) (m := m2) as (m3 & E3 & (I3 & I3') & F3); auto.
        { intros j Hj. apply (is_pred_split x fullr L1 L2 j _ T); auto. }
        exists true, (mkSk m3 (num s + 1)). split.
        { change (ea T) with a in E3. fold m1. fold st2.
          assert (Em : (if (eh root <? k)%nat then sset m1 (ea root) (mkSn (ev root) (rn ++ repeat 0%nat (k - eh root))) else m1) = m2) by (unfold m2; rewrite Er; auto).
          rewrite Er in *. unfold st2 in E3. unfold m2 in E3. rewrite E3. reflexivity. }
        split; auto. exists full'.
        assert (Sfull' : StronglySorted elt full').
        { apply sorted_insert; auto. rewrite <- E12. apply (wf_sorted _ Wr). }
        assert (Hlen : length full' = S (length full)).
        { unfold full'. rewrite app_length. cbn. rewrite E0. cbn. apply (f_equal (@length entry)) in E12. rewrite app_length in E12. cbn in E12. lia. }
        assert (HL1r : exists L1', L1 = root' :: L1').
        { destruct L1 as [|b L1']; cbn in E12.
          - exfalso. unfold fullr in E12. specialize (HL2 root'). rewrite <- E12 in HL2. cbn in HL2. apply HL2. left; auto.
          - injection E12 as <- _. eauto. }
        destruct HL1r as (L1' & EL1). 
        split.
        * split; [|split].
          -- constructor; auto.
             ++ intros e He. unfold full' in He. apply in_app_or in He. destruct He as [He|[<-|He]]; auto; apply (wf_nz _ Wr); rewrite E12; apply in_or_app; auto.
             ++ exists root', (L1' ++ T :: L2). split; [unfold full'; rewrite EL1; auto|]. split; auto. split; auto.
                assert (EL : L = L1' ++ L2) by (rewrite EL1 in E12; injection E12; auto).
                intros e He. apply in_app_or in He. destruct He as [He|[<-|He]]; [|cbn; split; [lia|discriminate]|];
                  (destruct (HL e) as [Hb Hne]; [rewrite EL; apply in_or_app; auto|]; split; auto; cbn; lia).
          -- apply chainf_holdsf. intros pre p rest Ep. destruct (Nat.eq_dec (ea p) a) as [Epa|Epa].
             ++ assert (p = T). { apply (addr_inj full'); auto; [rewrite Ep; apply in_or_app; right; left; auto|apply in_or_app; right; left; auto]. }
                subst p. assert (rest = L2).
                { unfold full' in Ep. destruct (app_split_cases _ _ _ _ _ _ (eq_sym Ep)) as [(Z & EZ & ->)|[(_ & _ & ->)|(Z & -> & EQ)]]; auto; exfalso.
                  - unfold full' in N'. rewrite EZ in N'. rewrite <- app_assoc in N'. rewrite map_app in N'. cbn in N'. apply NoDup_remove_2 in N'. apply N'. apply in_or_app; right. rewrite map_app. apply in_or_app; right; left; auto.
                  - unfold full' in N'. rewrite EQ in N'. rewrite map_app in N'. cbn in N'. apply NoDup_remove_2 in N'. apply N'. apply in_or_app; right. rewrite map_app. apply in_or_app; right; left; auto. }
                subst rest. cbn [smem]. rewrite I3'. do 2 f_equal. apply map_seq_ext. intros j Hj. rewrite (proj2 (Nat.ltb_lt _ _) Hj). auto.
             ++ cbn [smem]. rewrite (I3 pre p rest Ep) by (intros ->; apply Epa; auto). do 2 f_equal. apply map_seq_ext. intros j Hj. unfold mixf.
                destruct (Nat.ltb_spec j (eh T)); auto. apply links_minus_low with T; auto.
                intros e He Hx. apply (addr_inj full'); auto; [rewrite Ep; apply in_or_app; right; right; auto|apply in_or_app; right; left; auto].
          -- cbn [num]. rewrite Hnum. rewrite E0. unfold full'. rewrite EL1. cbn [tl app]. rewrite app_length. cbn.
             assert (EL : L = L1' ++ L2) by (rewrite EL1 in E12; injection E12; auto). rewrite EL, app_length. lia.
        * assert (Evals : vals full = vals L1 ++ vals L2).
          { rewrite <- vals_app, <- E12. rewrite E0. cbn. rewrite Ev. auto. }
          split.
          { clear -Sfull'. unfold ascending. induction Sfull' as [|e l S IH F]; cbn; [constructor|].
            destruct (ev e) as [y|] eqn:Hy; cbn [app]; auto. constructor; auto. apply Forall_forall. intros z Hz.
            unfold vals in Hz. apply in_flat_map in Hz. destruct Hz as (f & Hf & Hz). rewrite Forall_forall in F. specialize (F f Hf).
            unfold elt in F. rewrite Hy in F. destruct (ev f); [|destruct Hz]. destruct Hz as [<-|[]]. auto. }
          split; [|split; auto].
          { unfold full'. rewrite vals_app. cbn. rewrite Evals. symmetry. apply Permutation_middle. }
          unfold full'. rewrite EL1. discriminate.
      + rewrite Ro. exists false, s. auto.
  Qed.

  (* ---- remove ---- *)
  Definition zero (x : A) (e : entry) : Prop := match ev e with Some y => cmp y x = 0 | None => False end.
  Record target (x : A) (full : list entry) (t hT : nat) : Prop := {
    tg1 : forall e, In e full -> zero x e -> ea e = t /\ eh e = hT;
    tg2 : forall e, In e full -> ea e = t -> zero x e;
    tg3 : (0 < hT)%nat -> exists T, In T full /\ ea T = t /\ eh T = hT /\ zero x T
  }.
  Lemma links_minus_low' t i rest : (forall e, In e rest -> ea e = t -> (eh e <= i)%nat) -> links i (minus t rest) = links i rest.
  Proof.
    intros H. unfold links, minus. f_equal. induction rest as [|a l IH]; cbn [filter]; auto.
    assert (IH' : filter (tall i) (filter (fun e => negb (ea e =? t)%nat) l) = filter (tall i) l) by (apply IH; intros; apply H; auto; right; auto).
    destruct (Nat.eqb_spec (ea a) t) as [Ea|Ea]; cbn [negb filter].
    - rewrite IH'. assert (Hi : (eh a <= i)%nat) by (apply H; auto; left; auto). unfold tall at 2. rewrite (proj2 (Nat.ltb_ge _ _) Hi). auto.
    - rewrite IH'. auto.
  Qed.

  Lemma holdsf_ext (f g : nat -> list entry -> nat) m full : (forall pre p rest i, full = pre ++ p :: rest -> (i < eh p)%nat -> f i rest = g i rest) ->
    holdsf f m full -> holdsf g m full.
  Proof. intros H Hf pre p rest E. rewrite (Hf pre p rest E). do 2 f_equal. apply map_seq_ext. intros i Hi. eapply H; eauto. Qed.

  Definition remT (r t hT : nat) : option nat := if (r <? hT)%nat then Some t else None.

  (** one level: either unlinked or nothing to unlink *)
  Lemma level_cases m x full pre u rest c t hT i : wfl full -> target x full t hT -> full = pre ++ u :: rest -> smaller x u ->
    (i < eh u)%nat -> comp_ok x i rest c -> holdsf (mixf (S i) t) m full ->
    (exists T R1 L2 m1, negb (Nat.eqb (links i rest) 0) && (c =? 0) = true /\ links i rest = t /\ rest = R1 ++ T :: L2 /\ ea T = t /\ (i < hT)%nat /\ eh T = hT /\
       filter (tall i) R1 = [] /\
       nxt m t i = Ok (links i L2) /\ set_nxt m (ea u) i (links i L2) = Ok m1 /\ holdsf (mixf i t) m1 full) \/
    (negb (Nat.eqb (links i rest) 0) && (c =? 0) = false /\ (hT <= i)%nat /\ holdsf (mixf i t) m full /\ (links i (minus t rest) = links i rest)).
  Proof.
    intros W TG E Hs Hi Hc H.
    pose proof (wf_nd full W) as N.
    assert (Hfn : forall f l, filter (tall i) rest = f :: l -> In f rest) by (intros f l Ef; apply (filter_In (tall i) f rest); rewrite Ef; left; auto).
    destruct (links_split i rest) as [En|(R1 & f & L2 & Er & Ht & Hm & Hl)].
    - (* no successor on this level *)
      right. assert (Lz : links i rest = 0%nat) by (unfold links; rewrite En; auto). rewrite Lz. cbn [Nat.eqb negb andb].
      assert (Hh : (hT <= i)%nat).
      { destruct (le_lt_dec hT i) as [|Hlt]; auto. exfalso. destruct (tg3 _ _ _ _ TG) as (T & HT & Ea & Eh & Hz); [lia|].
        rewrite E in HT. replace (pre ++ u :: rest) with ((pre ++ [u]) ++ rest) in HT by (rewrite <- app_assoc; auto). apply in_app_or in HT. destruct HT as [HT|HT].
        - pose proof (passed_smaller x full pre u rest W E Hs T HT) as Hx. unfold smaller, zero in *. destruct (ev T); [lia|tauto].
        - assert (In T (filter (tall i) rest)) by (apply filter_In; split; auto; unfold tall; apply Nat.ltb_lt; lia). rewrite En in H0. destruct H0. }
      split; auto. split; auto. 
      assert (Hlow : forall pre p rest, full = pre ++ p :: rest -> links i (minus t rest) = links i rest).
      { intros pr p rs Ep. apply links_minus_low'. intros e He Hea. assert (In e full) by (rewrite Ep; apply in_or_app; right; right; auto).
        destruct (tg1 _ _ _ _ TG e H0 (tg2 _ _ _ _ TG e H0 Hea)). lia. }
      split; [|rewrite (Hlow _ _ _ E); auto].
      apply holdsf_ext with (mixf (S i) t); auto. intros pr p rs j Ep Hj. unfold mixf.
      destruct (Nat.ltb_spec j (S i)), (Nat.ltb_spec j i); auto; try lia. replace j with i by lia. symmetry. eapply Hlow; eauto.
    - assert (Hff : In f full) by (rewrite E, Er; apply in_or_app; right; right; apply in_or_app; right; left; auto).
      assert (Lf : links i rest = ea f) by (unfold links; rewrite Hl; auto).
      rewrite Lf. rewrite (proj2 (Nat.eqb_neq _ _) (wf_nz full W f Hff)). cbn [negb andb].
      unfold comp_ok in Hc. rewrite Hl in Hc. destruct (ev f) as [y|] eqn:Hy; [|tauto]. destruct Hc as [-> Hc].
      destruct (Z.eqb_spec (cmp y x) 0) as [Hz|Hz].
      + left. assert (Zf : zero x f) by (unfold zero; rewrite Hy; auto). destruct (tg1 _ _ _ _ TG f Hff Zf) as [Ea Eh].
        assert (Ef : full = (pre ++ u :: R1) ++ f :: L2) by (rewrite E, Er, <- app_assoc; auto).
        assert (Hif : (i < eh f)%nat) by (unfold tall in Ht; apply Nat.ltb_lt in Ht; auto).
        assert (Hnx : nxt m t i = Ok (links i L2)).
        { rewrite <- Ea. rewrite (nxt_holdsf _ _ _ _ _ _ i H Ef Hif). unfold mixf. rewrite (proj2 (Nat.ltb_lt i (S i))) by lia. auto. }
        pose proof (H pre u rest E) as Mu.
        exists f, R1, L2. eexists. split; auto. split; auto. split; auto. split; auto. split; [lia|]. split; auto. split; auto. split; auto. split.
        { unfold set_nxt, sget. rewrite Mu. cbn [obind nodes item]. rewrite map_length, seq_length, (proj2 (Nat.ltb_lt _ _) Hi). reflexivity. }
        intros pr p rs Ep. unfold sset. destruct (Nat.eqb_spec (ea p) (ea u)) as [Epu|Epu].
        * assert (p = u) by (apply (addr_inj full); auto; [rewrite Ep|rewrite E]; apply in_or_app; right; left; auto). subst p.
          assert (rs = rest).
          { rewrite Ep in E. destruct (app_split_cases _ _ _ _ _ _ E) as [(Z & -> & ->)|[(_ & _ & ->)|(Z & -> & EQ)]]; auto; exfalso;
            rewrite Ep in N; rewrite map_app in N; cbn in N; apply NoDup_remove_2 in N; apply N; apply in_or_app.
            - right. apply in_map. apply in_or_app; right; left; auto.
            - left. apply in_map. apply in_or_app; right; left; auto. }
          subst rs. f_equal. f_equal. rewrite upd_map_seq. apply map_seq_ext. intros j Hj. unfold mixf.
          destruct (Nat.eqb_spec j i) as [->|].
          -- rewrite Nat.ltb_irrefl. rewrite Er. rewrite (minus_mid t R1 f L2); auto; [rewrite links_app, Hm; auto|].
             rewrite Ef in N. rewrite <- app_assoc in N. cbn in N. rewrite map_app in N. cbn in N. apply NoDup_app_r in N. inversion N; auto.
          -- destruct (Nat.ltb_spec j (S i)), (Nat.ltb_spec j i); auto; lia.
        * rewrite (H pr p rs Ep). do 2 f_equal. apply map_seq_ext. intros j Hj. unfold mixf.
          destruct (Nat.ltb_spec j (S i)), (Nat.ltb_spec j i); auto; try lia. replace j with i in * by lia. symmetry. rewrite <- Ea.
          apply (links_minus_other full f u i pre R1 L2) with (pre := pr) (p := p); auto; [|congruence].
          split; [rewrite Ef, <- app_assoc; auto|auto].
      + right. split; auto.
        assert (Hh : (hT <= i)%nat).
        { destruct (le_lt_dec hT i) as [|Hlt]; auto. exfalso. destruct (tg3 _ _ _ _ TG) as (T & HT & Ea & Eh & HzT); [lia|].
          rewrite E in HT. replace (pre ++ u :: rest) with ((pre ++ [u]) ++ rest) in HT by (rewrite <- app_assoc; auto). apply in_app_or in HT. destruct HT as [HT|HT].
          - pose proof (passed_smaller x full pre u rest W E Hs T HT) as Hx. unfold smaller, zero in *. destruct (ev T); [lia|tauto].
          - unfold zero in HzT. destruct (ev T) as [z|] eqn:HzE; [|tauto].
            rewrite Er in HT. apply in_app_or in HT. destruct HT as [HT|[->|HT]].
            + assert (In T (filter (tall i) R1)) by (apply filter_In; split; auto; unfold tall; apply Nat.ltb_lt; lia). rewrite Hm in H0. destruct H0.
            + rewrite Hy in HzE. injection HzE as ->. auto.
            + assert (elt f T). { pose proof (wf_sorted full W) as Sx. rewrite E, Er in Sx. replace (pre ++ u :: R1 ++ f :: L2) with ((pre ++ u :: R1) ++ f :: L2) in Sx by (rewrite <- app_assoc; auto).
                clear -Sx HT. induction (pre ++ u :: R1) as [|a l IH]; cbn in Sx; inversion Sx as [|? ? S' F]; subst; auto. rewrite Forall_forall in F. auto. }
              unfold elt in H0. rewrite Hy, HzE in H0. assert (cmp y x < 0) by (apply lt_le_trans' with z; lia). lia. }
        split; auto.
        assert (Hlow : forall pre p rest, full = pre ++ p :: rest -> links i (minus t rest) = links i rest).
        { intros pr p rs Ep. apply links_minus_low'. intros e He Hea. assert (In e full) by (rewrite Ep; apply in_or_app; right; right; auto).
          destruct (tg1 _ _ _ _ TG e H0 (tg2 _ _ _ _ TG e H0 Hea)). lia. }
        split; [|rewrite (Hlow _ _ _ E); auto].
        apply holdsf_ext with (mixf (S i) t); auto. intros pr p rs j Ep Hj. unfold mixf.
        destruct (Nat.ltb_spec j (S i)), (Nat.ltb_spec j i); auto; try lia. replace j with i by lia. symmetry. eapply Hlow; eauto.
  Qed.

  Lemma rem_down_ok x full pre u rest c t hT : wfl full -> target x full t hT -> full = pre ++ u :: rest -> smaller x u ->
    forall r m, (0 < r <= eh u)%nat -> comp_ok x (r - 1) rest c -> holdsf (mixf r t) m full ->
    exists r' m', rem_down r m (ea u) c (remT r t hT) = Ok (r', m', remT r' t hT) /\ (r' < r)%nat /\
      holdsf (mixf r' t) m' full /\ (filter (tall r') rest = [] -> c < 0).
  Proof.
    intros W TG E Hs. pose proof (wf_nd full W) as N. induction r as [|i IH]; intros m Hr Hc H; [lia|]. replace (S i - 1)%nat with i in Hc by lia.
    assert (Hi : (i < eh u)%nat) by lia.
    assert (Hn : nxt m (ea u) i = Ok (links i rest)).
    { rewrite (nxt_holdsf _ _ _ _ _ _ i H E Hi). unfold mixf. rewrite (proj2 (Nat.ltb_lt i (S i))) by lia. auto. }
    assert (Hneg : filter (tall i) rest = [] -> c < 0) by (intros Hx; unfold comp_ok in Hc; rewrite Hx in Hc; auto).
    destruct (level_cases m x full pre u rest c t hT i W TG E Hs Hi Hc H)
      as [(T & R1 & L2 & m1 & Hb & Hlt & Er & Ea & HiT & EhT & HR1 & Hnt & Hset & H1)|(Hb & Hh & H1 & Hlm)].
    - assert (Er1 : remT i t hT = Some t) by (unfold remT; rewrite (proj2 (Nat.ltb_lt _ _) HiT); auto).
      destruct i as [|i].
      + exists 0%nat, m1. cbn [rem_down]. rewrite Hn. cbn [obind]. rewrite Hb, Hlt. rewrite Hnt. cbn [obind]. rewrite Hset. cbn [obind]. rewrite Er1. auto.
      + rewrite rem_down_SS. rewrite Hn. cbn [obind]. rewrite Hb, Hlt, Hnt. cbn [obind]. rewrite Hset. cbn [obind].
        assert (Hi' : (i < eh u)%nat) by lia.
        rewrite (nxt_holdsf _ _ _ _ _ _ i H1 E Hi'), (nxt_holdsf _ _ _ _ _ _ (S i) H1 E Hi). cbn [obind].
        unfold mixf at 1 2. rewrite (proj2 (Nat.ltb_lt i (S i))) by lia. rewrite Nat.ltb_irrefl.
        assert (Ef : full = (pre ++ u :: R1) ++ T :: L2) by (rewrite E, Er, <- app_assoc; auto).
        assert (NN : NoDup (map ea (R1 ++ T :: L2))).
        { rewrite Ef in N. rewrite <- app_assoc in N. cbn in N. rewrite map_app in N. cbn in N. apply NoDup_app_r in N. inversion N; auto. }
        assert (Hm : minus t rest = R1 ++ L2) by (rewrite Er; apply minus_mid; auto).
        rewrite Hm. rewrite (links_app (S i) R1 L2), HR1.
        assert (Hne : links i rest <> links (S i) L2).
        { assert (HiT' : (i < eh T)%nat) by lia.
          assert (exists g, In g (R1 ++ [T]) /\ links i rest = ea g) as (g & Hg & Eg).
          { rewrite Er, links_app. destruct (filter (tall i) R1) as [|g l] eqn:Eg; [exists T; split; [apply in_or_app; right; left; auto|apply links_tall; auto]|].
            exists g. split; auto. apply in_or_app; left. apply (filter_In (tall i) g R1). rewrite Eg. left; auto. }
          assert (Hgf : In g full) by (rewrite Ef; apply in_app_or in Hg; destruct Hg as [Hg|[<-|[]]]; apply in_or_app; [left; apply in_or_app; right; right; auto|right; left; auto]).
          rewrite Eg. unfold links. destruct (filter (tall (S i)) L2) as [|h l] eqn:Eh; cbn [haddr]; [apply (wf_nz full W); auto|].
          assert (Hh : In h L2) by (apply (filter_In (tall (S i)) h L2); rewrite Eh; left; auto).
          intros Hx. replace (R1 ++ T :: L2) with ((R1 ++ [T]) ++ L2) in NN by (rewrite <- app_assoc; auto). rewrite map_app in NN.
          clear -NN Hg Hh Hx. induction (R1 ++ [T]) as [|a l0 IH]; cbn in *; [destruct Hg|]. inversion NN; subst. destruct Hg as [->|Hg]; auto.
          apply H1. apply in_or_app; right. rewrite Hx. apply in_map; auto. }
        rewrite (proj2 (Nat.eqb_neq _ _) Hne). exists (S i), m1. rewrite Er1. split; auto.
    - assert (Er1 : remT i t hT = None) by (unfold remT; rewrite (proj2 (Nat.ltb_ge _ _) Hh); auto).
      assert (Er2 : remT (S i) t hT = None) by (unfold remT; rewrite (proj2 (Nat.ltb_ge (S i) hT)) by lia; auto).
      rewrite Er2. destruct i as [|i].
      + exists 0%nat, m. cbn [rem_down]. rewrite Hn. cbn [obind]. rewrite Hb. cbn [obind]. rewrite Er1. auto.
      + rewrite rem_down_SS. rewrite Hn. cbn [obind]. rewrite Hb. cbn [obind].
        assert (Hi' : (i < eh u)%nat) by lia.
        rewrite (nxt_holdsf _ _ _ _ _ _ i H1 E Hi'), (nxt_holdsf _ _ _ _ _ _ (S i) H1 E Hi). cbn [obind].
        unfold mixf at 1 2. rewrite (proj2 (Nat.ltb_lt i (S i))) by lia. rewrite Nat.ltb_irrefl. rewrite Hlm.
        destruct (Nat.eqb_spec (links i rest) (links (S i) rest)) as [El|El].
        * destruct (IH m) as (r' & m' & E' & L' & H' & C'); [lia| |exact H1|].
          { replace (S i - 1)%nat with i by lia. apply comp_ok_hd with (S i); auto. eapply links_eq_hd; eauto. }
          rewrite Er1 in E'. exists r', m'. split; auto.
        * exists (S i), m. rewrite Er1. split; auto.
  Qed.

  Lemma rem_loop_ok x full t hT : wfl full -> target x full t hT ->
    forall lv fuel m r pre u rest comp, full = pre ++ u :: rest -> (r < lv)%nat -> (r <= eh u)%nat -> (length full < fuel)%nat ->
      smaller x u -> (filter (tall r) rest = [] -> comp < 0) -> holdsf (mixf r t) m full ->
      exists m', rem_loop cmp lv fuel m x r (ea u) comp (remT r t hT) = Ok (m', remT 0 t hT) /\ holdsf (mixf 0 t) m' full.
  Proof.
    intros W TG. induction lv as [|lv IH]; intros fuel m r pre u rest comp E Hlv Hr Hfu Hs Hc H; [lia|].
    cbn [rem_loop]. destruct r as [|r]; cbn [Nat.eqb].
    - exists m. auto.
    - replace (S r - 1)%nat with r by lia.
      assert (Hf : forall l, mixf (S r) t r l = links r l) by (intros l; unfold mixf; rewrite (proj2 (Nat.ltb_lt r (S r))) by lia; auto).
      destruct (go_right_ok (mixf (S r) t) m x r full W (proj2 (chainf_holdsf _ _ _) H) Hf rest fuel pre u comp E)
        as (pre1 & u1 & rest1 & c1 & E1 & Ef1 & L1 & Hi1 & S1 & C1); auto.
      + rewrite E, app_length in Hfu. cbn in Hfu. lia.
      + intros Hn. apply Hc. apply filter_nil_mono with r; auto.
      + rewrite E1. cbn [obind].
        destruct (rem_down_ok x full pre1 u1 rest1 c1 t hT W TG Ef1 S1 (S r) m) as (r' & m' & E2 & L2 & H2 & C2); auto.
        { lia. } { replace (S r - 1)%nat with r by lia. auto. }
        rewrite E2. cbn [obind]. apply (IH fuel m' r' pre1 u1 rest1 c1); auto; lia.
  Qed.

  Lemma has_target x full : wfl full -> exists t hT, target x full t hT /\ (member cmp x (vals full) = (0 <? hT)%nat) /\ (hT = 0%nat -> t = 0%nat).
  Proof.
    intros W. destruct (mem_x x full) eqn:Em.
    - unfold mem_x in Em. apply existsb_exists in Em. destruct Em as (T & HT & Hz).
      assert (Zt : zero x T) by (unfold zero; destruct (ev T); [lia|discriminate]).
      assert (HhT : (0 < eh T)%nat).
      { destruct (wf_root full W) as (root & L & E0 & _ & Ev & HL). rewrite E0 in HT. destruct HT as [<-|HT]; [rewrite Ev in Hz; discriminate|]. destruct (HL T HT). lia. }
      assert (U : forall e, In e full -> zero x e -> e = T).
      { intros e He Ze. destruct (in_split _ _ HT) as (l1 & l2 & Es). pose proof (wf_sorted full W) as S. rewrite Es in He, S.
        apply in_app_or in He. destruct He as [He|[->|He]]; auto; exfalso.
        - assert (elt e T) by (eapply sorted_app_lt; eauto; left; auto). unfold elt, zero in *. destruct (ev e) as [y|], (ev T) as [z|]; try tauto.
          assert (cmp y x < 0) by (apply lt_le_trans' with z; lia). lia.
        - assert (elt T e). { clear -S He. induction l1 as [|a l IH]; cbn in S; inversion S as [|? ? S' F]; subst; auto. rewrite Forall_forall in F. auto. }
          unfold elt, zero in *. destruct (ev e) as [y|], (ev T) as [z|]; try tauto.
          assert (cmp z x < 0) by (apply lt_le_trans' with y; lia). lia. }
      exists (ea T), (eh T). split; [constructor|split].
      + intros e He Ze. rewrite (U e He Ze). auto.
      + intros e He Hx. rewrite (addr_inj full e T); auto. apply (wf_nd full W).
      + intros _. exists T. auto.
      + rewrite <- mem_x_vals. rewrite (proj2 (Nat.ltb_lt _ _) HhT). unfold mem_x. apply existsb_exists. exists T. auto.
      + lia.
    - exists 0%nat, 0%nat. split; [constructor|split].
      + intros e He Ze. exfalso. assert (mem_x x full = true); [|congruence]. unfold mem_x. apply existsb_exists. exists e. split; auto.
        unfold zero in Ze. destruct (ev e); [lia|tauto].
      + intros e He Hx. exfalso. apply (wf_nz full W e); auto.
      + lia.
      + rewrite <- mem_x_vals, Em. auto.
      + auto.
  Qed.

  Lemma sorted_drop (R : entry -> entry -> Prop) l1 e l2 : StronglySorted R (l1 ++ e :: l2) -> StronglySorted R (l1 ++ l2).
  Proof.
    induction l1 as [|a l IH]; cbn; intros S; inversion S as [|? ? S' F]; subst; auto. constructor; auto.
    rewrite Forall_forall in *. intros f Hf. apply F. apply in_app_or in Hf. apply in_or_app. cbn. tauto.
  Qed.

  Lemma skip_remove_ok fuel s full x : skip_holds s full -> (length full < fuel)%nat ->
    exists s' full', skip_remove cmp fuel s x = Ok (member cmp x (vals full), s') /\ skip_holds s' full' /\
      vals full' = filter (fun y => negb (cmp y x =? 0)) (vals full) /\ (length full' <= length full)%nat.
  Proof.
    intros (W & H & Hnum) Hf. unfold skip_remove. destruct (root_height _ _ W H) as (root & L & E0 & Er & Ev & Hh & HL). rewrite Hh.
    assert (Hend : filter (tall (eh root)) L = []).
    { clear -HL. induction L as [|a L IH]; cbn; auto. destruct (HL a (or_introl eq_refl)) as [Hb _]. unfold tall.
      destruct (Nat.ltb_spec (eh root) (eh a)); [lia|]. apply IH. intros; apply HL; right; auto. }
    destruct (has_target x full W) as (t & hT & TG & Hmem & Hz).
    assert (Hrt : (hT <= eh root)%nat).
    { destruct (Nat.eq_dec hT 0); [lia|]. destruct (tg3 _ _ _ _ TG) as (T & HT & _ & Eh & ZT); [lia|]. rewrite E0 in HT. destruct HT as [<-|HT]; [lia|].
      destruct (HL T HT). lia. }
    assert (Hrem : remT (eh root) t hT = None) by (unfold remT; rewrite (proj2 (Nat.ltb_ge _ _) Hrt); auto).
    pose proof (proj1 (chainf_holdsf links (smem s) full) H) as Hp.
    destruct (rem_loop_ok x full t hT W TG (S (eh root)) fuel (smem s) (eh root) [] root L (-1)) as (m' & E & H'); auto.
    - unfold smaller. rewrite Ev. auto.
    - lia.
    - apply holdsf_ext with links; auto. intros pre p rest i Ep Hi. unfold mixf.
      assert (eh p <= eh root)%nat.
      { rewrite E0 in Ep. destruct pre; cbn in Ep; injection Ep as <- EL; auto. destruct (HL p); [rewrite EL; apply in_or_app; right; left; auto|lia]. }
      rewrite (proj2 (Nat.ltb_lt i (eh root))) by lia. auto.
    - rewrite Er, Hrem in E. rewrite E. cbn [obind]. rewrite Hmem. unfold remT. destruct (Nat.ltb_spec 0 hT) as [Hpos|Hzero].
      + destruct (tg3 _ _ _ _ TG Hpos) as (T & HT & Ea & Eh & ZT). destruct (in_split _ _ HT) as (L1 & L2 & Es).
        assert (Hs : sget m' t = Ok (mkSn (ev T) (map (fun i => mixf 0 t i L2) (seq 0 (eh T))))).
        { unfold sget. pose proof (H' L1 T L2 Es) as Hx. rewrite Ea in Hx. rewrite Hx. auto. }
        rewrite Hs. cbn [obind].
        assert (HL1 : exists L1', L1 = root :: L1' /\ L = L1' ++ T :: L2).
        { rewrite E0 in Es. destruct L1 as [|a L1]; cbn in Es; injection Es as <- EL; [exfalso; unfold zero in ZT; rewrite Ev in ZT; tauto|eauto]. }
        destruct HL1 as (L1' & -> & EL). pose proof (wf_nd full W) as N. rewrite Es in N.
        eexists. exists ((root :: L1') ++ L2). split; [reflexivity|].
        assert (Nt : ~ In t (map ea ((root :: L1') ++ L2))).
        { rewrite map_app in N. change (map ea (T :: L2)) with (ea T :: map ea L2) in N. apply NoDup_remove_2 in N. rewrite Ea in N. rewrite map_app. auto. }
        split; [|split].
        * split; [|split].
          -- constructor.
             ++ rewrite map_app in *. cbn [map] in N. apply (NoDup_remove_1 _ _ _ N).
             ++ intros e He. apply (wf_nz full W). rewrite Es. apply in_app_or in He. apply in_or_app. cbn. cbn in He. tauto.
             ++ pose proof (wf_sorted full W) as S. rewrite Es in S. eapply sorted_drop; eauto.
             ++ exists root, (L1' ++ L2). split; auto. split; auto. split; auto. intros e He. apply HL. rewrite EL. apply in_app_or in He. apply in_or_app. cbn. tauto.
          -- apply chainf_holdsf. intros pre p rest Ep. cbn [smem].
             assert (Hpt : ea p <> t) by (intros Hx; apply Nt; rewrite Ep, <- Hx; apply in_map; apply in_or_app; right; left; auto).
             rewrite (proj2 (Nat.eqb_neq _ _) Hpt).
             assert (exists pre' rest', full = pre' ++ p :: rest' /\ minus t rest' = rest) as (pre' & rest' & Ep' & Em).
             { assert (Hmn : forall l, (forall e, In e l -> In e ((root :: L1') ++ L2)) -> minus t l = l).
               { intros l Hl. apply minus_notin. intros e He Hx. apply Nt. rewrite <- Hx. apply in_map. apply Hl. exact He. }
               assert (exists K, (root :: L1' = pre ++ p :: K /\ rest = K ++ L2) \/ (pre = (root :: L1') ++ K /\ L2 = K ++ p :: rest)) as (K & [[Ek1 Ek2]|[Ek1 Ek2]]).
               { clear -Ep. revert Ep. generalize (root :: L1'). intros l. revert l. induction pre as [|a pre IH]; intros [|b l] Ep; cbn in Ep.
                 - exists []. right. split; auto.
                 - injection Ep as -> <-. exists l. left. split; auto.
                 - exists (a :: pre). right. split; auto.
                 - injection Ep as -> Ep. destruct (IH l Ep) as (K & [[-> ->]|[-> ->]]); exists K; [left|right]; auto. }
               - exists pre, (K ++ T :: L2). split; [rewrite Es, Ek1, <- app_assoc; auto|]. rewrite Ek2. apply minus_mid; auto.
                 rewrite Ek1 in N. rewrite <- app_assoc in N. cbn [app] in N. rewrite map_app in N. apply NoDup_app_r in N. cbn [map] in N. inversion N; auto.
               - exists ((root :: L1') ++ T :: K), rest. split; [rewrite Es, Ek2, <- app_assoc; auto|]. apply Hmn. intros e He. apply in_or_app; right. rewrite Ek2. apply in_or_app; right; right; auto. }
             rewrite (H' pre' p rest' Ep'). do 2 f_equal. apply map_seq_ext. intros i Hi. unfold mixf. cbn [Nat.ltb Nat.leb]. rewrite Em. auto.
          -- cbn [num tl app]. rewrite Hnum, E0. cbn [tl]. rewrite EL. rewrite !app_length. cbn [length]. lia.
        * rewrite Es. rewrite !vals_app. rewrite filter_app.
          assert (Hkeep : forall l, (forall e, In e l -> ~ zero x e) -> filter (fun y => negb (cmp y x =? 0)) (vals l) = vals l).
          { clear. induction l as [|e l IH]; intros Hl; cbn; auto. rewrite filter_app. fold (vals l). rewrite IH by (intros; apply Hl; right; auto). f_equal.
            assert (~ zero x e) by (apply Hl; left; auto). unfold zero in H. destruct (ev e) as [y|]; cbn; auto. destruct (Z.eqb_spec (cmp y x) 0); [tauto|auto]. }
          assert (Hnz : forall e, In e ((root :: L1') ++ L2) -> ~ zero x e).
          { intros e He Ze. apply Nt. destruct (tg1 _ _ _ _ TG e) as [Hx _]; auto; [rewrite Es; apply in_app_or in He; apply in_or_app; cbn; cbn in He; tauto|].
            rewrite <- Hx. apply in_map; auto. }
          rewrite (Hkeep (root :: L1')) by (intros; apply Hnz; apply in_or_app; auto). f_equal.
          change (T :: L2) with ([T] ++ L2). rewrite vals_app, filter_app, (Hkeep L2) by (intros; apply Hnz; apply in_or_app; auto).
          unfold zero in ZT. cbn. destruct (ev T) as [y|]; [|tauto]. cbn. rewrite ZT. auto.
        * rewrite Es, !app_length. cbn. lia.
      + assert (hT = 0%nat) by lia. rewrite (Hz H0) in *.
        eexists. exists full. split; [reflexivity|]. split; [|split; auto].
        * split; auto. split; auto. apply chainf_holdsf. cbn [smem]. apply holdsf_ext with (mixf 0 0); auto.
          intros pre p rest i Ep Hi. unfold mixf. cbn [Nat.ltb Nat.leb]. rewrite minus_notin; auto. intros e He. apply (wf_nz full W). rewrite Ep. apply in_or_app; right; right; auto.
        * assert (Hm : mem_x x full = false) by (rewrite mem_x_vals; exact Hmem).
          rewrite mem_x_vals in Hm. unfold member in Hm. clear -Hm. induction (vals full) as [|y l IH]; cbn in *; auto.
          apply orb_false_iff in Hm. destruct Hm as [Hy Hm]. rewrite Hy. cbn. f_equal. auto.
  Qed.

  (* ---- iteration ---- *)
  Lemma level0_ok m full : wfl full -> chainf links m full ->
    forall rest fuel pre u, full = pre ++ u :: rest -> (length rest < fuel)%nat -> level0 fuel m (ea u) = Ok (vals rest).
  Proof.
    intros W H. induction rest as [|e rest IH]; intros fuel pre u E Hf; (destruct fuel as [|fuel]; [cbn in Hf; lia|]); cbn [level0]; unfold sget.
    - rewrite E in H. rewrite (chainf_at links m pre u []); auto. cbn. destruct (eh u); cbn; auto.
    - rewrite (chainf_at links m pre u (e :: rest)) by (rewrite <- E; auto). cbn [obind nodes].
      destruct (wf_root full W) as (root & L & E0 & _ & _ & HL).
      assert (HeL : In e L). { rewrite E0 in E. destruct pre as [|p pre]; cbn in E; injection E as -> EL; rewrite EL; [left; auto|apply in_or_app; right; right; left; auto]. }
      destruct (HL e HeL) as [Hhe Hev].
      assert (Hhu : (0 < eh u)%nat).
      { rewrite E0 in E. destruct pre as [|p pre]; cbn in E; injection E as -> EL; [lia|]. destruct (HL u); [rewrite EL; apply in_or_app; right; left; auto|lia]. }
      destruct (eh u) as [|h]; [lia|]. cbn [seq map]. rewrite links_tall by lia.
      assert (Hez : ea e <> 0%nat) by (apply (wf_nz full W); rewrite E; apply in_or_app; right; right; left; auto).
      rewrite (proj2 (Nat.eqb_neq _ _) Hez). destruct (ev e) as [y|] eqn:Hy; [|congruence].
      assert (Hie : item_of m (ea e) = Ok y).
      { unfold item_of, sget. rewrite (chainf_at links m (pre ++ [u]) e rest); [cbn; rewrite Hy; auto|]. rewrite <- app_assoc. cbn. rewrite <- E. auto. }
      rewrite Hie. cbn [obind]. rewrite (IH fuel (pre ++ [u]) e); [cbn; rewrite Hy; auto|rewrite <- app_assoc; auto|cbn in Hf; lia].
  Qed.
End SP.
