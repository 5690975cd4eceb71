(** C111: a message reaches all nodes the trails lead to, and its journey ends *)
From Verif Require Import Base Dhkey_Model Dhkey_Proofs Pheromone_Model Pheromone_Spec Pheromone_Props Data_Model Out_Model Out_Spec Out_Proofs Flood_Model Flood_Spec Flood_Proofs.

(** In whatever order the packets arrive: when none is under way any more (and none came too late), the message has reached every
    node that the trails lead to. *)
Theorem C111_reaches : forall n bucket ack s B o m sched, wf_key ack -> wf_key s -> s <> ack -> sound_net n bucket s B -> n o <> None -> m_subject m = s -> in_time sched ->
  fst (travel n bucket ack sched (leave n o m, [])) = [] ->
  forall k, path n s o k -> k <> o -> In k (map p_to (snd (travel n bucket ack sched (leave n o m, [])))).
Proof.
  intros n bucket ack s B o m sched Wa Ws Ne SN No Hm IT En. pose proof (covered_run n bucket ack s B Wa Ws Ne SN o sched IT _ (covered_start n bucket s B SN o m No Hm)) as (_ & _ & C).
  rewrite En in C. cbn [map In] in C. intros k P. assert (G : has o (snd (travel n bucket ack sched (leave n o m, []))) k); [|intros Q; destruct G; [congruence|auto]].
  induction P as [k k' E|k k' k'' P IH E].
  - destruct (C k k') as [H|[]]; auto. left. reflexivity.
  - destruct (C k' k'') as [H|[]]; auto.
Qed.

(** It reaches nobody else. *)
Theorem C111_nobody_else : forall n bucket ack s B o m sched, wf_key ack -> wf_key s -> s <> ack -> sound_net n bucket s B -> n o <> None -> m_subject m = s ->
  forall p, In p (snd (travel n bucket ack sched (leave n o m, []))) -> path n s o (p_to p).
Proof.
  intros n bucket ack s B o m sched Wa Ws Ne SN No Hm. destruct (leave_spec n bucket s B SN o m No Hm) as [F R]. apply Forall_forall. apply (only_run n bucket ack s B Wa Ws Ne SN o sched); cbn [fst snd]; rewrite app_nil_r.
  - eapply Forall_impl; [|exact F]. cbn. tauto.
  - apply Forall_forall. intros q Hq. apply path_one, R, in_map, Hq.
Qed.

(** Where the trails have no cycle the journey ends: there is a bound for the number of packets, whatever the order of their arrival. *)
Theorem C111_ends_partial : forall n bucket ack s B rank o m, wf_key ack -> wf_key s -> s <> ack -> sound_net n bucket s B -> n o <> None -> m_subject m = s ->
  (forall k k', edge n s k k' -> (rank k' < rank k)%nat) ->
  exists bound, forall sched, valid n bucket ack sched (leave n o m, []) -> (length sched <= bound)%nat.
Proof.
  intros n bucket ack s B rank o m Wa Ws Ne SN No Hm HR. exists (costs B rank (leave n o m)). intros sched V. apply (ends_run n bucket ack s B Wa Ws Ne SN rank HR sched (leave n o m, [])); [|exact V].
  destruct (leave_spec n bucket s B SN o m No Hm) as [F _]. eapply Forall_impl; [|exact F]. cbn. tauto.
Qed.
(** And it ends anyway when the message has expired: from then on each arrival leaves one packet less. *)
Theorem C111_expired : forall n bucket ack sched st, Forall (fun x => snd x = true) sched -> valid n bucket ack sched st ->
  length (fst (travel n bucket ack sched st)) = (length (fst st) - length sched)%nat.
Proof. intros. apply late_run; auto. Qed.

(** The claim fails where the trails have cycles: if every node knows two neighbours to reach receivers, a message circulates until it
    expires, in whatever order the packets arrive. *)
Theorem C111_cycle_refuted : forall n bucket ack s B o m sched, wf_key ack -> wf_key s -> s <> ack -> sound_net n bucket s B -> n o <> None -> m_subject m = s ->
  closed n s -> branching n s 1 -> in_time sched -> valid n bucket ack sched (leave n o m, []) -> fst (travel n bucket ack sched (leave n o m, [])) <> [].
Proof.
  intros n bucket ack s B o m sched Wa Ws Ne SN No Hm Cl Br IT V. destruct (leave_spec n bucket s B SN o m No Hm) as [F R].
  assert (W : Forall (fun p => well s p /\ n (p_to p) <> None) (leave n o m)). { apply Forall_forall. intros q Hq. rewrite Forall_forall in F. split; [apply F; auto|]. eapply Cl. apply R, in_map, Hq. }
  pose proof (storm_run n bucket ack s B Wa Ws Ne SN 1 sched Cl Br ltac:(lia) IT (leave n o m, []) W V) as G. cbn [fst] in G.
  destruct (Br o [] No) as (l & Hl & _ & Fl). destruct l as [|k l]; [discriminate|]. inversion Fl as [|? ? [Ek _] _]; subst. apply R in Ek. intros Q. rewrite Q in G. cbn in G. destruct (leave n o m); [destruct Ek|cbn in G; lia].
Qed.
(** With three neighbours each the packets multiply: each arrival makes one more. *)
Theorem C111_storm_refuted : forall n bucket ack s B o m sched, wf_key ack -> wf_key s -> s <> ack -> sound_net n bucket s B -> n o <> None -> m_subject m = s ->
  closed n s -> branching n s 2 -> in_time sched -> valid n bucket ack sched (leave n o m, []) -> (length sched < length (fst (travel n bucket ack sched (leave n o m, []))))%nat.
Proof.
  intros n bucket ack s B o m sched Wa Ws Ne SN No Hm Cl Br IT V. destruct (leave_spec n bucket s B SN o m No Hm) as [F R].
  assert (W : Forall (fun p => well s p /\ n (p_to p) <> None) (leave n o m)). { apply Forall_forall. intros q Hq. rewrite Forall_forall in F. split; [apply F; auto|]. eapply Cl. apply R, in_map, Hq. }
  pose proof (storm_run n bucket ack s B Wa Ws Ne SN 2 sched Cl Br ltac:(lia) IT (leave n o m, []) W V) as G. cbn [fst] in G.
  destruct (Br o [] No) as (l & Hl & _ & Fl). destruct l as [|k l]; [discriminate|]. inversion Fl as [|? ? [Ek _] _]; subst. apply R in Ek. destruct (leave n o m); [destruct Ek|cbn in G; lia].
Qed.

(** * The hypotheses are met *)
(** [l]: the nodes with the neighbours from which they smelled receivers of [topic 1] *)
Definition node_of (l : list key) (k : key) (from : list key) : world :=
  mkW k (fun k' => if existsb (np_dhkey_equal k') l then Some (Node true) else None) true
    (match Pheromone_Spec.run (new_table k) (map (fun '(src, t) => Use (topic 1) src true t) (combine from [1; 2; 3])) with Ok tb => tb | _ => new_table k end) 5.
Definition key_dec (a b : key) : {a = b} + {a <> b} := list_eq_dec Z.eq_dec a b.
Definition net_of (l : list (key * list key)) : net := fun k =>
  match find (fun x => if key_dec (fst x) k then true else false) l with Some (k0, from) => Some (node_of (map fst l) k0 from) | None => None end.
Fixpoint nodup_b (l : list key) : bool := match l with [] => true | k :: r => negb (if in_dec key_dec k r then true else false) && nodup_b r end.
Definition onward (w : world) (ks : list key) : list key := filter (fun k => negb (if key_dec k (w_me w) then true else false) && exists_key w k) ks.
Definition node_check (l : list (key * list key)) (c : nat) (x : key * list key) : bool :=
  let w := node_of (map fst l) (fst x) (snd x) in
  wf_b (fst x) && match trail (w_table w) (topic 1) true with
                  | Ok (ks, cur) => (0 <=? cur) && forallb wf_b ks && nodup_b ks && Nat.leb (length ks) 5 && Nat.leb c (length (onward w ks)) && forallb (fun k => if in_dec key_dec k (map fst l) then true else false) ks
                  | _ => false
                  end && match exhale (w_table w) 7 with Ok _ => true | _ => false end.
Lemma nodup_b_ok l : nodup_b l = true -> NoDup l.
Proof. induction l as [|k l IH]; cbn [nodup_b]; intros H; constructor; apply andb_true_iff in H; destruct H as [H1 H2]; [|auto]. destruct (in_dec key_dec k l); [discriminate|auto]. Qed.
Lemma net_of_some l k w : net_of l k = Some w -> exists from, In (k, from) l /\ w = node_of (map fst l) k from.
Proof.
  unfold net_of. destruct (find _ l) as [[k0 from]|] eqn:F; [|discriminate]. intros [= <-]. apply find_some in F. destruct F as [I Q]. cbn [fst] in Q. destruct (key_dec k0 k) as [->|]; [|discriminate]. eauto.
Qed.
Lemma net_of_in l k : In k (map fst l) -> net_of l k <> None.
Proof.
  intros I. apply in_map_iff in I. destruct I as ([k0 from] & <- & I). cbn [fst]. unfold net_of. destruct (find _ l) as [[k1 f1]|] eqn:F; [discriminate|]. exfalso. pose proof (find_none _ _ F _ I) as Q. cbn [fst] in Q. destruct (key_dec k0 k0); [discriminate|congruence].
Qed.
Lemma check_trail l c k from : node_check l c (k, from) = true -> let w := node_of (map fst l) k from in wf_key k /\ exists ks cur tb', trail (w_table w) (topic 1) true = Ok (ks, cur) /\ 0 <= cur /\ Forall wf_key ks /\ NoDup ks /\ (length ks <= 5)%nat /\
  (c <= length (onward w ks))%nat /\ incl ks (map fst l) /\ exhale (w_table w) 7 = Ok tb'.
Proof.
  intros H w. unfold node_check in H. cbn [fst snd] in H. fold w in H. apply andb_true_iff in H. destruct H as [H H3]. apply andb_true_iff in H. destruct H as [H1 H2]. split; [apply wf_b_ok; auto|].
  destruct (trail (w_table w) (topic 1) true) as [[ks cur]| |]; try discriminate. destruct (exhale (w_table w) 7) as [tb'| |]; try discriminate. rewrite !andb_true_iff in H2. destruct H2 as (((((A & B) & C) & D) & E) & F).
  exists ks, cur, tb'. split; [reflexivity|]. split; [lia|]. split; [apply Forall_forall; intros x Hx; rewrite forallb_forall in B; apply wf_b_ok; auto|]. split; [apply nodup_b_ok; auto|]. split; [apply Nat.leb_le; auto|]. split; [apply Nat.leb_le; auto|]. split; [|reflexivity].
  intros x Hx. rewrite forallb_forall in F. specialize (F x Hx). destruct (in_dec key_dec x (map fst l)); [auto|discriminate].
Qed.
Lemma check_sound l c : forallb (node_check l c) l = true -> sound_net (net_of l) (fun _ => 7) (topic 1) 5.
Proof.
  intros H k w E. apply net_of_some in E. destruct E as (from & I & ->). rewrite forallb_forall in H. destruct (check_trail l c k from (H _ I)) as (W & ks & cur & tb' & T & C & F & N & L & _ & _ & Ex).
  split; [reflexivity|]. split; [reflexivity|]. exists ks, cur, tb'. split; [exact T|]. split; [exact C|]. split; [split; [exact W|split; [exact F|exact N]]|]. split; [unfold enough_room; cbn [w_room node_of]; exact L|]. split; [exact L|exact Ex].
Qed.
Lemma check_closed l c : forallb (node_check l c) l = true -> closed (net_of l) (topic 1).
Proof.
  intros H k k' (w & ks & cur & E & T & I & _). apply net_of_some in E. destruct E as (from & Il & ->). rewrite forallb_forall in H. destruct (check_trail l c k from (H _ Il)) as (_ & ks' & cur' & tb' & T' & _ & _ & _ & _ & _ & Inc & _).
  rewrite T in T'. injection T' as <- <-. apply net_of_in. apply Inc. exact I.
Qed.
Lemma filter_ne (prev : key) l : NoDup l -> (length l <= S (length (filter (fun k => if key_dec k prev then false else true) l)))%nat.
Proof.
  induction l as [|x l IH]; intros N; cbn [length filter]; [lia|]. inversion N as [|? ? Nx N']; subst. destruct (key_dec x prev) as [->|]; [|cbn [length]; specialize (IH N'); lia].
  replace (filter (fun k => if key_dec k prev then false else true) l) with l; [lia|]. clear - Nx. induction l as [|y l IH]; [reflexivity|]. cbn [filter]. destruct (key_dec y prev) as [->|]; [exfalso; apply Nx; left; auto|]. rewrite <- IH; auto. intros Q. apply Nx. right. auto.
Qed.
Lemma firstn_nodup {A} c : forall l : list A, NoDup l -> NoDup (firstn c l).
Proof. induction c as [|c IH]; intros [|x l] N; cbn [firstn]; try constructor; inversion N; subst; [intros Q; apply firstn_incl in Q; auto|auto]. Qed.
Lemma check_branching l c : forallb (node_check l (S c)) l = true -> branching (net_of l) (topic 1) c.
Proof.
  intros H k prev N. destruct (net_of l k) as [w|] eqn:E; [|congruence]. pose proof E as E0. apply net_of_some in E. destruct E as (from & Il & ->). rewrite forallb_forall in H. destruct (check_trail l (S c) k from (H _ Il)) as (_ & ks & cur & tb' & T & C & F & ND & L & Cn & Inc & _).
  set (w := node_of (map fst l) k from) in *. assert (N2 : NoDup (onward w ks)) by (apply NoDup_filter; auto). set (f := filter (fun k => if key_dec k prev then false else true) (onward w ks)). pose proof (filter_ne prev _ N2) as Q. fold f in Q.
  exists (firstn c f). split; [rewrite firstn_length; lia|]. split; [apply firstn_nodup, NoDup_filter, N2|]. apply Forall_forall. intros x Hx. apply firstn_incl in Hx. unfold f, onward in Hx. rewrite !filter_In in Hx. destruct Hx as ((Hx & Hy) & Hz).
  apply andb_true_iff in Hy. destruct Hy as [Hy1 Hy2]. split; [|destruct (key_dec x prev); [discriminate|auto]]. exists w, ks, cur. split; [exact E0|]. split; [exact T|]. split; [exact Hx|]. split; [destruct (key_dec x (w_me w)); [discriminate|auto]|]. unfold exists_key in Hy2. destruct (w_cache w x); [discriminate|discriminate].
Qed.
(** a chain, and (at different distances) four nodes that are all receivers and know each other *)
Definition chain : list (key * list key) := [(near 1, [near 2]); (near 2, [near 3]); (near 3, [])].
Definition mesh : list (key * list key) := [(near 1, [near 2; near 4; near 9]); (near 2, [near 1; near 4; near 9]); (near 4, [near 1; near 2; near 9]); (near 9, [near 1; near 2; near 4])].
Definition news : message := mkM (topic 1) (topic 7) false 0 [1; 2].
Example C111_chain_case : forallb (node_check chain 0) chain = true.
Proof. vm_compute. reflexivity. Qed.
Example C111_reaches_case : match travel (net_of chain) (fun _ => 7) (topic 9) [(0%nat, false); (0%nat, false)] (leave (net_of chain) (near 1) news, []) with ([], [p; q]) => np_dhkey_equal (p_to p) (near 3) && np_dhkey_equal (p_to q) (near 2) | _ => false end = true.
Proof. vm_compute. reflexivity. Qed.
Example C111_mesh_case : forallb (node_check mesh 3) mesh = true.
Proof. vm_compute. reflexivity. Qed.
Example C111_storm_case : forall sched, in_time sched -> valid (net_of mesh) (fun _ => 7) (topic 9) sched (leave (net_of mesh) (near 1) news, []) ->
  (length sched < length (fst (travel (net_of mesh) (fun _ => 7%Z) (topic 9%Z) sched (leave (net_of mesh) (near 1%Z) news, []))))%nat.
Proof.
  intros sched IT V. apply (C111_storm_refuted (net_of mesh) (fun _ => 7) (topic 9) (topic 1) 5); auto.
  - apply wf_b_ok. reflexivity.
  - apply wf_b_ok. reflexivity.
  - discriminate.
  - apply (check_sound mesh 3). exact C111_mesh_case.
  - apply net_of_in. left. reflexivity.
  - apply (check_closed mesh 3). exact C111_mesh_case.
  - apply (check_branching mesh 2). exact C111_mesh_case.
Qed.

Print Assumptions C111_reaches.
Print Assumptions C111_nobody_else.
Print Assumptions C111_ends_partial.
Print Assumptions C111_expired.
Print Assumptions C111_cycle_refuted.
Print Assumptions C111_storm_refuted.
