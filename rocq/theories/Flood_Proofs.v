From Verif Require Import Base Dhkey_Model Dhkey_Proofs Pheromone_Model Pheromone_Spec Data_Model Out_Model Out_Spec Out_Proofs Flood_Model Flood_Spec.

Section Net.
  Context (n : net) (bucket : key -> Z) (ack s : key) (B : nat) (Wack : wf_key ack) (Ws : wf_key s) (Hs : s <> ack) (SN : sound_net n bucket s B).
  Notation receive := (receive n bucket ack).
  Notation arrive := (arrive n bucket ack).
  Notation travel := (travel n bucket ack).
  Notation edge := (edge n s).

  Definition well (p : parcel) : Prop := m_subject (p_msg p) = s /\ wf_key (p_from p).

  Lemma edge_iff k w ks cur k' : n k = Some w -> trail (w_table w) s true = Ok (ks, cur) -> edge k k' <-> usable w ks k'.
  Proof. intros E T. split; [intros (w' & ks' & cur' & E' & T' & U); rewrite E in E'; injection E' as <-; rewrite T in T'; injection T' as <- <-; exact U|]. intros U. exists w, ks, cur. auto. Qed.
  Lemma edge_wf k k' : edge k k' -> wf_key k'.
  Proof.
    intros (w & ks & cur & E & T & I & _). destruct (SN k w E) as (_ & _ & ks' & cur' & tb' & T' & _ & (_ & F & _) & _). rewrite T in T'. injection T' as <- <-. rewrite Forall_forall in F. auto.
  Qed.
  Lemma node_wf k w : n k = Some w -> wf_key k.
  Proof. intros E. destruct (SN k w E) as (Em & _ & ks & cur & tb' & _ & _ & (W & _) & _). rewrite Em in W. exact W. Qed.

  (** what a node sends on *)
  Lemma receive_spec p : well p -> n (p_to p) <> None ->
    Forall (fun q => well q /\ p_from q = p_to p) (receive p) /\ NoDup (map p_to (receive p)) /\ (length (receive p) <= B)%nat /\
    forall k, In k (map p_to (receive p)) <-> edge (p_to p) k /\ k <> p_from p.
  Proof.
    intros [Hm Wf] N. unfold Flood_Model.receive. destruct (n (p_to p)) as [w|] eqn:E; [|congruence]. destruct (SN _ w E) as (Em & Cn & ks & cur & tb' & T & C & P & R & L & Ex).
    unfold forward. cbn [m_subject]. rewrite Hm. destruct (np_dhkey_equal ack s) eqn:Q; [apply equal_spec in Q; auto; congruence|].
    unfold out_forward. rewrite Cn. cbn [negb m_subject m_audience m_forwarded m_hops m_rest]. rewrite (forward_ok 7 _ _ (p_from p) _ _ T C) by discriminate. cbn [lift rbind]. destruct P as (P1 & P2 & P3). rewrite remove_twice by auto.
    set (m1 := mkM s _ _ _ _).
    destruct (send_ok w m1 (m_audience (p_msg p)) (remove_first (p_from p) ks) (proper_remove w _ ks (conj P1 (conj P2 P3))) (room_remove w _ ks R) eq_refl) as (r & cs & Sc & _ & (A1 & A2 & A3)).
    rewrite Sc, Ex. cbn [lift rbind]. rewrite map_map. cbn [p_to]. split; [|split; [exact A2|split]].
    - apply Forall_forall. intros q Hq. apply in_map_iff in Hq. destruct Hq as (c & <- & Hc). rewrite Forall_forall in A1. destruct (A1 c Hc) as [-> _]. split; [|reflexivity]. split; [reflexivity|]. cbn [p_from]. eapply node_wf; eauto.
    - rewrite map_length. assert (length cs <= length (remove_first (p_from p) ks))%nat; [|pose proof (remove_first_len (p_from p) ks); lia]. unfold send_chunks in Sc. injection Sc as _ <-. rewrite firstn_length, map_length. pose proof (filter_len (fun h => negb (np_dhkey_equal h (w_me w)) && exists_key w h) (remove_first (p_from p) ks)). lia.
    - intros k. change (fun x : copy => c_hop x) with c_hop. rewrite A3. rewrite (edge_iff _ w ks cur k E T). unfold usable. rewrite (remove_first_spec (p_from p) ks k Wf P2 P3). tauto.
  Qed.
  Lemma receive_none p : n (p_to p) = None -> receive p = [].
  Proof. intros E. unfold Flood_Model.receive. rewrite E. reflexivity. Qed.
  Lemma receive_well p : well p -> Forall (fun q => well q /\ p_from q = p_to p) (receive p).
  Proof. intros W. destruct (n (p_to p)) eqn:E; [apply receive_spec; auto; congruence|]. rewrite receive_none by auto. constructor. Qed.

  Lemma leave_spec k m : n k <> None -> m_subject m = s ->
    Forall (fun q => well q /\ p_from q = k) (leave n k m) /\ forall k', In k' (map p_to (leave n k m)) <-> edge k k'.
  Proof.
    intros N Hm. unfold leave. destruct (n k) as [w|] eqn:E; [|congruence]. destruct (SN _ w E) as (Em & Cn & ks & cur & tb' & T & C & P & R & L & Ex).
    assert (Eq : out_default w m = Done (send_chunks w m (m_audience m) ks)).
    { unfold out_default. rewrite Cn. cbn [negb]. rewrite Hm. rewrite (default_ok 7 _ _ _ _ T C) by discriminate. cbn [lift rbind]. destruct ks; [|reflexivity]. unfold send_chunks. cbn [filter map]. rewrite firstn_nil. reflexivity. }
    rewrite Eq. destruct (send_ok w m (m_audience m) ks P R eq_refl) as (r & cs & Sc & _ & (A1 & A2 & A3)). rewrite Sc. split.
    - apply Forall_forall. intros q Hq. apply in_map_iff in Hq. destruct Hq as (c & <- & Hc). rewrite Forall_forall in A1. destruct (A1 c Hc) as [-> _]. split; [|reflexivity]. split; [exact Hm|]. cbn [p_from]. eapply node_wf; eauto.
    - intros k'. rewrite map_map. cbn [p_to]. change (fun x : copy => c_hop x) with c_hop. rewrite A3. symmetry. eapply edge_iff; eauto.
  Qed.

  Lemma nth_split i (way : list parcel) p : nth_error way i = Some p -> way = firstn i way ++ p :: skipn (S i) way.
  Proof. revert way. induction i as [|i IH]; intros [|x way]; cbn; try discriminate; [intros [= <-]; reflexivity|]. intros H. rewrite <- IH; auto. Qed.

  (** * Everybody is reached *)
  (** who has the message: the origin and the nodes where it arrived *)
  Definition has (o : key) (log : list parcel) (k : key) : Prop := k = o \/ In k (map p_to log).
  Definition Covered (o : key) (st : list parcel * list parcel) : Prop :=
    Forall well (fst st ++ snd st) /\ Forall (fun p => has o (snd st) (p_from p)) (fst st ++ snd st) /\
    forall k k', has o (snd st) k -> edge k k' -> has o (snd st) k' \/ In k' (map p_to (fst st)).
  Lemma has_more o log p k : has o log k -> has o (p :: log) k.
  Proof. intros [H|H]; [left; auto|right; right; auto]. Qed.
  Lemma covered_step o i st : Covered o st -> Covered o (arrive i false st).
  Proof.
    destruct st as [way log]. intros (W & F & E). cbn [fst snd] in *. unfold Flood_Model.arrive. destruct (nth_error way i) as [p|] eqn:Q; [|split; [exact W|split; [exact F|exact E]]].
    pose proof (nth_split _ _ _ Q) as Sp. set (a := firstn i way) in *. set (b := skipn (S i) way) in *. clearbody a b. subst way.
    assert (Wp : well p) by (rewrite Forall_forall in W; apply W; rewrite !in_app_iff; left; right; left; auto).
    assert (Fp : has o log (p_from p)) by (rewrite Forall_forall in F; apply F; rewrite !in_app_iff; left; right; left; auto).
    pose proof (receive_well p Wp) as RW. rewrite Forall_forall in RW, W, F.
    split; [|split]; cbn [fst snd].
    - apply Forall_forall. intros q Hq. rewrite !in_app_iff in Hq. cbn [In] in Hq. destruct Hq as [[Hq|[Hq|Hq]]|[Hq|Hq]].
      + apply W. rewrite !in_app_iff. auto.
      + apply W. rewrite !in_app_iff. cbn. auto.
      + apply RW; auto.
      + subst q. auto.
      + apply W. rewrite !in_app_iff. auto.
    - apply Forall_forall. intros q Hq. rewrite !in_app_iff in Hq. cbn [In] in Hq. destruct Hq as [[Hq|[Hq|Hq]]|[Hq|Hq]].
      + apply has_more, F. rewrite !in_app_iff. auto.
      + apply has_more, F. rewrite !in_app_iff. cbn. auto.
      + destruct (RW q Hq) as [_ ->]. right. left. reflexivity.
      + subst q. apply has_more. auto.
      + apply has_more, F. rewrite !in_app_iff. auto.
    - assert (New : forall k', edge (p_to p) k' -> has o (p :: log) k' \/ In k' (map p_to (a ++ b ++ receive p))).
      { intros k' Hk. assert (N : n (p_to p) <> None) by (destruct Hk as (w & _ & _ & E' & _); congruence). destruct (receive_spec p Wp N) as (_ & _ & _ & R).
        destruct (list_eq_dec Z.eq_dec k' (p_from p)) as [->|Ne]; [left; apply has_more; auto|]. right. rewrite !map_app, !in_app_iff. right. right. apply R. auto. }
      intros k k' H Hk. assert (D : has o log k \/ k = p_to p) by (destruct H as [H|[H|H]]; [left; left; auto|right; auto|left; right; auto]). destruct D as [D| ->]; [|apply New; auto].
      destruct (E k k' D Hk) as [G|G]; [left; apply has_more; auto|]. rewrite map_app, in_app_iff in G. cbn [map In] in G. destruct G as [G|[G|G]].
      + right. rewrite !map_app, !in_app_iff. auto.
      + left. right. left. auto.
      + right. rewrite !map_app, !in_app_iff. auto.
  Qed.
  Lemma covered_run o sched : in_time sched -> forall st, Covered o st -> Covered o (travel sched st).
  Proof. induction 1 as [|[i late] sched H _ IH]; intros st C; [exact C|]. cbn in H. subst late. cbn [Flood_Model.travel]. apply IH, covered_step, C. Qed.
  Lemma covered_start o m : n o <> None -> m_subject m = s -> Covered o (leave n o m, []).
  Proof.
    intros N Hm. destruct (leave_spec o m N Hm) as [F R]. rewrite Forall_forall in F. split; [|split]; cbn [fst snd]; rewrite ?app_nil_r.
    - apply Forall_forall. intros q Hq. apply F; auto.
    - apply Forall_forall. intros q Hq. left. apply F; auto.
    - intros k k' [->|[]] Hk. right. apply R. auto.
  Qed.

  (** * Nobody else *)
  Lemma only_run o sched : forall st, Forall well (fst st ++ snd st) -> Forall (fun p => path n s o (p_to p)) (fst st ++ snd st) -> Forall (fun p => path n s o (p_to p)) (snd (travel sched st)).
  Proof.
    induction sched as [|[i late] sched IH]; intros st W F; [apply Forall_app in F; tauto|]. cbn [Flood_Model.travel]. destruct st as [way log]. cbn [fst snd] in *. unfold Flood_Model.arrive at 1. destruct (nth_error way i) as [p|] eqn:Q; [|apply IH; auto].
    pose proof (nth_split _ _ _ Q) as Sp. set (a := firstn i way) in *. set (b := skipn (S i) way) in *. clearbody a b. subst way. rewrite Forall_forall in W, F.
    assert (Wp : well p) by (apply W; rewrite !in_app_iff; left; right; left; auto). assert (Fp : path n s o (p_to p)) by (apply F; rewrite !in_app_iff; left; right; left; auto).
    pose proof (receive_well p Wp) as RW. rewrite Forall_forall in RW.
    apply IH; cbn [fst snd]; apply Forall_forall; intros q Hq; rewrite !in_app_iff in Hq; cbn [In] in Hq; destruct Hq as [[Hq|[Hq|Hq]]|[Hq|Hq]]; try (subst q; assumption); try (apply W; rewrite !in_app_iff; cbn; tauto); try (apply F; rewrite !in_app_iff; cbn; tauto); (destruct late; [destruct Hq|]).
    - apply RW; auto.
    - assert (N : n (p_to p) <> None) by (intros N; rewrite receive_none in Hq by auto; destruct Hq). eapply path_more; [exact Fp|]. apply (receive_spec p Wp N). apply in_map. exact Hq.
  Qed.

  (** * Without cycles it ends *)
  Lemma travel_way_log sched st : Flood_Model.travel n bucket ack sched st = travel sched st. Proof. reflexivity. Qed.
  Section Rank.
    Context (rank : key -> nat) (HR : forall k k', edge k k' -> (rank k' < rank k)%nat).
    Definition cost (p : parcel) : nat := Nat.pow (S B) (rank (p_to p)).
    Definition costs (l : list parcel) : nat := fold_right (fun p c => cost p + c)%nat 0%nat l.
    Lemma costs_app l l' : costs (l ++ l') = (costs l + costs l')%nat.
    Proof. unfold costs. induction l as [|p l IH]; cbn [app fold_right]; [reflexivity|]. rewrite IH. lia. Qed.
    Lemma cost_pos p : (1 <= cost p)%nat.
    Proof. unfold cost. induction (rank (p_to p)) as [|r IH]; cbn [Nat.pow]; [lia|]. nia. Qed.
    Lemma cost_receive p : well p -> (costs (receive p) < cost p)%nat.
    Proof.
      intros W. destruct (n (p_to p)) eqn:E; [|rewrite receive_none by auto; cbn; apply cost_pos]. assert (N : n (p_to p) <> None) by congruence. destruct (receive_spec p W N) as (_ & _ & L & R).
      destruct (rank (p_to p)) as [|r] eqn:Er.
      - assert (receive p = []) as ->. { destruct (receive p) as [|q l] eqn:Q; [reflexivity|]. exfalso. destruct (proj1 (R (p_to q))) as [Hq _]; [left; reflexivity|]. specialize (HR _ _ Hq). lia. }
        apply cost_pos.
      - assert (G : forall l, (forall q, In q l -> edge (p_to p) (p_to q)) -> (costs l <= length l * Nat.pow (S B) r)%nat).
        { induction l as [|q l IH]; intros H; [cbn; lia|]. unfold costs. cbn [fold_right length Nat.mul]. fold (costs l). assert (cost q <= Nat.pow (S B) r)%nat; [|specialize (IH (fun x Hx => H x (or_intror Hx))); lia].
          unfold cost. apply Nat.pow_le_mono_r; [lia|]. specialize (HR _ _ (H q (or_introl eq_refl))). lia. }
        specialize (G (receive p) (fun q Hq => proj1 (proj1 (R (p_to q)) (in_map p_to _ q Hq)))). pose proof (Nat.mul_le_mono_r _ _ (Nat.pow (S B) r) L).
        assert (1 <= Nat.pow (S B) r)%nat by (clear; induction r as [|r IH]; cbn [Nat.pow]; [lia|nia]). set (x := costs (receive p)) in *. clearbody x. unfold cost. rewrite Er. cbn [Nat.pow Nat.mul]. lia.
    Qed.
    Lemma ends_run sched : forall st, Forall well (fst st) -> valid n bucket ack sched st -> (length sched <= costs (fst st))%nat.
    Proof.
      induction sched as [|[i late] sched IH]; intros [way log] W V; cbn [length]; [lia|]. cbn [fst] in *. cbn [valid fst] in V. destruct V as [L V]. unfold Flood_Model.arrive in V. destruct (nth_error way i) as [p|] eqn:Q; [|apply nth_error_None in Q; lia].
      pose proof (nth_split _ _ _ Q) as Sp. set (a := firstn i way) in *. set (b := skipn (S i) way) in *. clearbody a b. subst way. rewrite Forall_forall in W.
      assert (Wp : well p) by (apply W; rewrite in_app_iff; right; left; auto). specialize (IH (a ++ b ++ (if late then [] else receive p), p :: log)). cbn [fst] in IH.
      assert (W' : Forall well (a ++ b ++ (if late then [] else receive p))).
      { apply Forall_forall. intros q Hq. rewrite !in_app_iff in Hq. destruct Hq as [Hq|[Hq|Hq]]; [apply W; rewrite in_app_iff; auto|apply W; rewrite in_app_iff; cbn; auto|]. destruct late; [destruct Hq|]. pose proof (receive_well p Wp) as RW. rewrite Forall_forall in RW. apply RW; auto. }
      specialize (IH W' V). rewrite !costs_app in IH. rewrite costs_app. unfold costs at 2. cbn [fold_right]. fold (costs b). pose proof (cost_receive p Wp). pose proof (cost_pos p). destruct late; cbn [costs fold_right] in IH; [change (costs []) with 0%nat in IH|]; lia.
    Qed.
  End Rank.

  (** * With cycles it does not *)
  Lemma incl_nodup_len (l : list key) : forall l', NoDup l -> incl l l' -> (length l <= length l')%nat.
  Proof. intros l' N I. apply NoDup_incl_length; auto. Qed.
  Lemma storm_run c sched : closed n s -> branching n s c -> (1 <= c)%nat -> in_time sched -> forall st, Forall (fun p => well p /\ n (p_to p) <> None) (fst st) -> valid n bucket ack sched st ->
    (length (fst st) + (c - 1) * length sched <= length (fst (travel sched st)))%nat.
  Proof.
    intros Cl Br Hc IT. induction IT as [|[i late] sched H _ IH]; intros [way log] W V; cbn [length]; [cbn [Flood_Model.travel fst]; lia|]. cbn in H. subst late. cbn [fst] in *. cbn [valid fst] in V. destruct V as [L V]. cbn [Flood_Model.travel]. unfold Flood_Model.arrive in V |- * at 1.
    destruct (nth_error way i) as [p|] eqn:Q; [|apply nth_error_None in Q; lia]. pose proof (nth_split _ _ _ Q) as Sp. set (a := firstn i way) in *. set (b := skipn (S i) way) in *. clearbody a b. subst way. rewrite Forall_forall in W.
    assert (Wp : well p /\ n (p_to p) <> None) by (apply W; rewrite in_app_iff; right; left; auto). destruct Wp as [Wp N]. destruct (receive_spec p Wp N) as (RW & ND & _ & R).
    specialize (IH (a ++ b ++ receive p, p :: log)). cbn [fst] in IH. assert (W' : Forall (fun p => well p /\ n (p_to p) <> None) (a ++ b ++ receive p)).
    { apply Forall_forall. intros q Hq. rewrite !in_app_iff in Hq. destruct Hq as [Hq|[Hq|Hq]]; [apply W; rewrite in_app_iff; auto|apply W; rewrite in_app_iff; cbn; auto|]. rewrite Forall_forall in RW. split; [apply RW; auto|]. eapply Cl. apply R. apply in_map. exact Hq. }
    specialize (IH W' V). assert (G : (c <= length (receive p))%nat).
    { destruct (Br (p_to p) (p_from p) N) as (l & Hl & Nl & Fl). rewrite <- Hl, <- (map_length p_to (receive p)). apply NoDup_incl_length; auto. intros k Hk. apply R. rewrite Forall_forall in Fl. apply Fl. exact Hk. }
    rewrite !app_length in *. cbn [length] in *. clear - IH G Hc. rewrite Nat.mul_succ_r. lia.
  Qed.
  Lemma late_run sched : Forall (fun x => snd x = true) sched -> forall st, valid n bucket ack sched st -> length (fst (travel sched st)) = (length (fst st) - length sched)%nat.
  Proof.
    induction 1 as [|[i late] sched H _ IH]; intros [way log] V; cbn [length]; [cbn; lia|]. cbn in H. subst late. cbn [valid fst] in V. destruct V as [L V]. cbn [Flood_Model.travel]. rewrite IH by exact V. unfold Flood_Model.arrive.
    destruct (nth_error way i) as [p|] eqn:Q; [|apply nth_error_None in Q; lia]. pose proof (nth_split _ _ _ Q) as Sp. cbn [fst]. rewrite Sp at 3. rewrite !app_length. cbn [length]. lia.
  Qed.
End Net.
