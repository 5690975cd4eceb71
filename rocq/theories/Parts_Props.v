(** C119: messages that come in pieces. *)
From Verif Require Import Base Dhkey_Model Bloom_Model Bloom_Spec Bloom_Decay Message_Model Message_Spec Message_Props Parts_Model Parts_Spec Parts_Proofs.

(** A message of several parts is handed on exactly once, and exactly as it was sent, whatever parts of other messages
    come in between, in whatever order, and however often the node tidies up in between - before its life time is over,
    with less than 512 neighbours, and unless its key collides in the filter. *)
Theorem C119_apart_partial : forall fuel time_of k m evs out st',
  well_formed m -> no_id_wrap m -> 1 < parts m -> parts m < Z.of_nat fuel ->
  Permutation (own k evs) (packets_of m) -> apart k evs -> Forall (in_time time_of (header m)) evs ->
  history fuel time_of start evs = Ok (out, st') ->
  exists s, handed k out = [s] /\ deserialize_chunks s = Ok (Some m) /\ lookup k (waiting st') = None.
Proof.
  intros fuel time_of k m evs out st' Wf Nw P1 Fu Pm (w & Hw & Ap) T E. unfold packets_of in Pm. apply Permutation_map_inv in Pm. destruct Pm as (cs & Oe & Pc).
  assert (Sp : forall evs cs c, own k evs = map (packet_of m) (cs ++ [c]) -> exists a b, evs = a ++ Part k (packet_of m c) :: b /\ own k a = map (packet_of m) cs /\ own k b = []).
  { clear. induction evs as [|e evs IH]; intros cs c O; cbn [own] in O; [destruct cs; discriminate|]. destruct e as [k' p|now peers].
    - destruct (list_eq_dec Z.eq_dec k k') as [<-|Nk].
      + destruct cs as [|c0 cs]; cbn [app map] in O.
        * injection O as -> O. exists [], evs. auto.
        * injection O as -> O. destruct (IH _ _ O) as (a & b & -> & A & B). exists (Part k (packet_of m c0) :: a), b. cbn [app own]. destruct (list_eq_dec Z.eq_dec k k); [|congruence]. rewrite A. auto.
      + destruct (IH _ _ O) as (a & b & -> & A & B). exists (Part k' p :: a), b. cbn [app own]. destruct (list_eq_dec Z.eq_dec k k'); [congruence|]. auto.
    - destruct (IH _ _ O) as (a & b & -> & A & B). exists (Tidy now peers :: a), b. auto. }
  assert (Hc : cs <> []). { intros ->. apply Permutation_sym, Permutation_nil in Pc || apply Permutation_nil in Pc. destruct (Z.to_nat (parts m)) eqn:Q; [lia|discriminate]. }
  destruct (exists_last Hc) as (done & c & ->). destruct (Sp _ _ _ Oe) as (a & b & -> & Oa & Ob).
  destruct (history_app fuel time_of a start (Part k (packet_of m c) :: b) out st' E) as (o1 & st1 & o2 & E1 & E2 & ->). cbn [history] in E2.
  destruct (react fuel time_of st1 (Part k (packet_of m c))) as [[o st2]| |] eqn:R; cbn [obind] in E2; [|discriminate|discriminate].
  destruct (history fuel time_of st2 b) as [[o3 st3]| |] eqn:H; cbn [obind] in E2; [|discriminate|discriminate]. injection E2 as <- <-. apply Forall_app in T. destruct T as [Ta _].
  assert (ND : NoDup (done ++ [c])) by (eapply Permutation_NoDup; [exact Pc|apply seq_NoDup]).
  assert (Hin : forall x, In x (done ++ [c]) -> Z.of_nat x < parts m). { intros x Hx. assert (Hs : In x (seq 0 (Z.to_nat (parts m)))) by (eapply Permutation_in; [apply Permutation_sym; exact Pc|exact Hx]). apply in_seq in Hs. lia. }
  assert (Nc : ~ In c done /\ NoDup done). { apply NoDup_remove in ND. rewrite app_nil_r in ND. tauto. } destruct Nc as [Nc NDd].
  destruct (progress fuel time_of k w m Wf Nw P1 Fu Hw a [] done start _ o1 st1 c start_Inv eq_refl) as (A & P & s & Iv & U); cbn [app]; auto; try reflexivity.
  { intros k' p v Hv. apply (Ap k' p v). apply in_or_app. auto. }
  { intros x Hx. apply Hin, in_or_app. auto. }
  { apply Hin, in_or_app. right. left. reflexivity. }
  cbn [react] in R. destruct (arrive fuel st1 k (packet_of m c)) as [[r st4]| |] eqn:Ar; cbn [obind] in R; [|discriminate|discriminate]. injection R as <- <-.
  destruct (arrive_own fuel st1 k (packet_of m c) r st4 w s _ Iv U Hw ltac:(cbn; lia) P Ar) as (s' & Es & C). cbn [app] in *.
  replace (map (packet_of m) done ++ [packet_of m c]) with (map (packet_of m) (done ++ [c])) in Es by (rewrite map_app; reflexivity).
  destruct (C32_any_order_reassembles m (map (packet_of m) (done ++ [c])) fuel Wf Nw) as (s2 & F1 & F2 & F3); auto.
  { apply Permutation_map. apply Permutation_sym. exact Pc. }
  rewrite Es in F1. injection F1 as <-. rewrite F2 in C. assert (done <> []). { intros ->. apply Permutation_length in Pc. rewrite seq_length in Pc. cbn in Pc. lia. }
  destruct done as [|d0 done]; [congruence|]. cbn [map andb] in C. destruct C as (-> & L & N4). destruct (step_away fuel time_of k b st4 o3 st3 Ob L N4 H) as [B1 B2].
  exists s'. rewrite handed_app. rewrite A. cbn [app handed]. destruct (list_eq_dec Z.eq_dec k k); [|congruence]. rewrite B1. auto.
Qed.
(** As long as one of its parts has not come, a message is not handed on, and the parts that came are kept. *)
Theorem C119_waits : forall fuel time_of k m evs out st' chunks missing,
  well_formed m -> no_id_wrap m -> 1 < parts m -> parts m < Z.of_nat fuel ->
  own k evs = map (packet_of m) chunks -> NoDup chunks -> (forall c, In c chunks -> Z.of_nat c < parts m) -> Z.of_nat missing < parts m -> ~ In missing chunks ->
  apart k evs -> Forall (in_time time_of (header m)) evs -> history fuel time_of start evs = Ok (out, st') ->
  handed k out = [] /\ receive_all fuel None (map (packet_of m) chunks) = Ok (lookup k (waiting st')).
Proof.
  intros fuel time_of k m evs out st' cs missing Wf Nw P1 Fu Oe ND Hb Hm Hn (w & Hw & Ap) T E.
  destruct (progress fuel time_of k w m Wf Nw P1 Fu Hw evs [] cs start _ out st' missing start_Inv eq_refl) as (A & P & _); cbn [app]; auto; reflexivity.
Qed.
(** A message of any number of parts that was handed on is not handed on again, whatever comes afterwards, until the
    node has tidied up 16 times (8 times with 8 to 26 neighbours, 6 times up to 63, ...), unless the number of
    neighbours crosses a cube. *)
Theorem C119_once_partial : forall fuel time_of evs out st k p s st1 m evs2 out2 st2,
  Forall few evs -> history fuel time_of start evs = Ok (out, st) -> react fuel time_of st (Part k p) = Ok ([(k, s)], st1) ->
  1 <= m -> between_cubes m (Tidy 0 (last_count 0 evs)) -> Forall (between_cubes m) evs2 -> tidied evs2 * m < 16 ->
  history fuel time_of st1 evs2 = Ok (out2, st2) -> handed k out2 = [].
Proof.
  intros fuel time_of evs out st k p s st1 m evs2 out2 st2 F E R Hm B F2 T E2.
  destruct (inv_history fuel time_of evs start _ 0 out st start_Inv eq_refl F E) as (s0 & (I & G & N) & Sh).
  assert (Pl : 0 <= last_count 0 evs < 512).
  { assert (Q : forall n, 0 <= n < 512 -> 0 <= last_count n evs < 512); [|apply Q; lia]. clear - F. induction F as [|e evs He F IH]; intros n Hn; cbn [last_count]; [exact Hn|]. destruct e; apply IH; auto. }
  assert (M7 : m <= 7). { destruct B as [_ B]. destruct (Z.lt_ge_cases m 8) as [|M]; [lia|]. pose proof (cube_mono 8 m ltac:(lia)). lia. }
  destruct B as [B1 B2]. rewrite (level_between m) in Sh by (auto; lia).
  cbn [react] in R. destruct (arrive fuel st k p) as [[r st3]| |] eqn:A; cbn [obind] in R; [|discriminate|discriminate]. destruct r as [r|]; [|discriminate]. injection R as -> ->.
  destruct (arrive_effect _ _ _ _ _ _ A) as (_ & ND & _ & Ad). destruct (add_inv _ _ _ _ G I Ad) as [I1 G1].
  apply (once_history fuel time_of m k evs2 st1 (dstep s0 (DAdd k)) 0 out2 st2); auto; [split; [exact I1|split; auto]|lia| ].
  intros w Hw. exists 0. split; [|lia]. cbn [dstep sz since]. replace (existsb _ k) with true; auto. symmetry. apply existsb_exists. exists w. split; auto. apply Z.eqb_refl.
Qed.
(** Tidying up removes exactly the incomplete messages whose life time (in the part with the lowest number that came) is over. *)
Theorem C119_removed : forall fuel time_of st now peers o st' k r p0 rest, react fuel time_of st (Tidy now peers) = Ok (o, st') -> slots r = Some p0 :: rest ->
  In (k, r) (waiting st') <-> In (k, r) (waiting st) /\ now < fst (time_of (pheader p0)) + snd (time_of (pheader p0)) * 1000000.
Proof.
  intros fuel time_of st now peers o st' k r p0 rest R Sl. cbn [react] in R. unfold cleanup in R. destruct (decaying_decay (seen_filter st)); cbn [obind] in R; [|discriminate|discriminate]. cbv zeta in R.
  match type of R with context [obind (if ?c then ?a else ?b) _] => destruct (if c then a else b) end; cbn [obind] in R; [|discriminate|discriminate]. injection R as <- <-. cbn [waiting].
  rewrite filter_In. cbn [snd]. unfold outdated. rewrite Sl. destruct (time_of (pheader p0)) as [t ttl]. cbn [fst snd]. unfold is_expired, expiry. rewrite negb_true_iff, Z.leb_gt.
  split; intros [A B]; split; auto; lia.
Qed.
(** A message of one part is handed on at once, whatever other messages came before, unless its key collides in the filter. *)
Theorem C119_single : forall fuel time_of k p evs out st o st', own k evs = [] -> apart k evs -> Forall few evs -> history fuel time_of start evs = Ok (out, st) ->
  pparts p = 1 -> react fuel time_of st (Part k p) = Ok (o, st') -> exists s, o = [(k, s)] /\ slots s = [Some p] /\ waiting st' = waiting st.
Proof.
  intros fuel time_of k p evs out st o st' Oe (w & Hw & Ap) F E Hp R.
  assert (Q : forall evs st0 s0, own k evs = [] -> (forall k' q v, In (Part k' q) evs -> k' <> k -> In v k' -> v mod 8192 <> w mod 8192) -> Forall few evs -> Inv st0 s0 -> unseen w s0 -> lookup k (waiting st0) = None ->
    forall out, history fuel time_of st0 evs = Ok (out, st) -> exists s, Inv st s /\ unseen w s).
  { clear - Hw. induction evs as [|e evs IH]; intros st0 s0 O Ap F I U L out E; cbn [history own] in *; [injection E as _ <-; eauto|]. inversion F as [|? ? F1 F2]; subst.
    destruct (react fuel time_of st0 e) as [[o1 st1]| |] eqn:R; cbn [obind] in E; [|discriminate|discriminate]. destruct (history fuel time_of st1 evs) as [[o2 st2]| |] eqn:H; cbn [obind] in E; [|discriminate|discriminate]. injection E as _ <-.
    assert (Fo : foreign time_of k w st0 e).
    { destruct e as [k' q|now peers]; [|split; [exact F1|intros r Lr; congruence]]. destruct (list_eq_dec Z.eq_dec k k'); [discriminate|]. split; [auto|]. intros v Hv. apply (Ap k' q v); [left; reflexivity|auto|auto]. }
    destruct (step_other fuel time_of st0 e o1 st1 k w s0 I U Fo R) as (_ & L1 & s1 & I1 & U1).
    apply (IH st1 s1) with (out := o2); auto; [|intros k' q v Hq; apply (Ap k' q v); right; exact Hq|congruence]. destruct e as [k' q|]; [|exact O]. destruct (list_eq_dec Z.eq_dec k k'); [discriminate|exact O]. }
  destruct (Q evs start _ Oe Ap F start_Inv eq_refl eq_refl out E) as (s & (I & G & _) & U). cbn [react] in R. unfold arrive in R. rewrite (unseen_check w k s) in R by auto. cbn [obind] in R.
  replace (1 <? pparts p) with false in R by lia. unfold first_chunk in R. replace (pparts p =? 0) with false in R by lia. cbn [obind] in R.
  destruct (decaying_add (seen_filter st) k) as [f| |]; cbn [obind] in R; [|discriminate|discriminate]. injection R as <- <-. eexists. split; [reflexivity|]. cbn [slots waiting]. rewrite Hp. auto.
Qed.
(** FINDING: there is no limit on the number of incomplete messages that wait: the first parts of any number of
    messages are all kept until the life time their sender gave them is over. *)
Theorem C119_limit_refuted : forall fuel time_of (ks : list key) p now peers, NoDup ks -> Forall wf_key ks -> 1 < pparts p -> 0 <= peers < 512 ->
  now < fst (time_of (pheader p)) + snd (time_of (pheader p)) * 1000000 ->
  exists st', history fuel time_of start (map (fun k => Part k p) ks ++ [Tidy now peers]) = Ok ([], st') /\ length (waiting st') = length ks.
Proof.
  intros fuel time_of ks p now peers ND Wk Hp Hpe Hn. destruct start_inv as [I G]. set (s0 := mkDecay 8192 1 (fun _ => None)) in *.
  assert (Q : forall ks st, seen_filter st = seen_filter start -> NoDup ks -> Forall wf_key ks -> (forall k, In k ks -> lookup k (waiting st) = None) -> Forall (fun e => Forall (same_header (pheader p)) (slots (snd e))) (waiting st) ->
    exists st', history fuel time_of st (map (fun k => Part k p) ks ++ [Tidy now peers]) = Ok ([], st') /\ (length (waiting st') = length (waiting st) + length ks)%nat).
  { clear ks ND Wk. induction ks as [|k ks IH]; intros st Hf ND Wk L Hh; cbn [map app history].
    - cbn [react]. rewrite <- Hf in I. destruct (tidy_ok time_of st now peers s0 G I Hpe) as (f & E & _). rewrite E. cbn [obind app]. eexists. split; [reflexivity|]. cbn [waiting length]. rewrite Nat.add_0_r.
      clear E L. induction Hh as [|e l He Hl IHl]; cbn [filter]; auto. rewrite (not_outdated time_of (pheader p)) by auto. cbn [negb length]. rewrite IHl. reflexivity.
    - inversion ND as [|? ? N1 N2]; subst. inversion Wk as [|? ? W1 W2]; subst. cbn [react]. unfold arrive. rewrite Hf. destruct k as [|w k]; [destruct W1; discriminate|].
      rewrite (unseen_check w (w :: k) s0) by (auto; try reflexivity; left; reflexivity). cbn [obind]. replace (1 <? pparts p) with true by lia. rewrite (L (w :: k)) by (left; reflexivity).
      unfold first_chunk. replace (pparts p =? 0) with false by lia. cbn [obind]. match goal with |- context [history _ _ ?x _] => destruct (IH x) as (st' & E & Len) end; cbn [seen_filter waiting]; auto.
      + intros k' Hk. cbn [lookup]. rewrite same_key_neq; [apply L; right; auto|]. intros ->. auto.
      + constructor; auto. cbn [snd slots]. constructor; [reflexivity|]. apply Forall_forall. intros x Hx. apply repeat_spec in Hx. subst. exact Logic.I.
      + rewrite E. cbn [obind app]. exists st'. split; [reflexivity|]. rewrite Len. cbn [waiting length]. lia. }
  destruct (Q ks start eq_refl ND Wk) as (st' & E & L); [reflexivity|constructor|]. exists st'. split; auto.
Qed.

(** two messages whose parts come mixed, and a third of one part; one of the parts again after the message was complete *)
Definition three : message := mkMsg 20 [8] 5 [9] [100] 3 (repeat 1 900 ++ repeat 2 900 ++ repeat 3 900).
Definition ka : key := [1;2;3;4;5;6;7;8].
Definition kb : key := [11;2;3;4;5;6;7;9].
Definition kc : key := [21;22;3;4;5;6;7;10].
Definition mixed : list event :=
  [Part ka (packet_of four 2); Part kb (packet_of three 1); Part ka (packet_of four 0); Part kc (mkPk 3 [] 3 [] [] 1 [7]); Part kb (packet_of three 2);
   Part ka (packet_of four 3); Part kb (packet_of three 0); Part ka (packet_of four 1)].
Definition in_header (h : list Z) : Z * Z := (0, nth 0 h 0).
Example C119_ex : match history 5 in_header start mixed with Ok (out, st) => map fst out = [kc; kb; ka] /\ waiting st = [] | _ => False end.
Proof. vm_compute. auto. Qed.
Example C119_ex_hyps : well_formed three /\ no_id_wrap three /\ Permutation (own kb mixed) (packets_of three) /\ apart kb mixed /\ Forall (in_time in_header (header three)) mixed.
Proof.
  split; [repeat split; vm_compute; auto; discriminate|]. split; [vm_compute; discriminate|]. split; [|split].
  - change (own kb mixed) with (map (packet_of three) [1;2;0]%nat). apply Permutation_map. change (seq 0 (Z.to_nat (parts three))) with [0;1;2]%nat. apply Permutation_sym. apply (Permutation_cons_append [1;2]%nat 0%nat).
  - exists 11. split; [left; reflexivity|]. intros k' p v H N Hv. assert (K : k' = ka \/ k' = kc).
    { unfold mixed in H. repeat (destruct H as [H|H]; [try discriminate; injection H as <- _; auto; congruence|]). destruct H. }
    destruct K as [-> | ->]; unfold ka, kc in Hv; cbn [In] in Hv; repeat (destruct Hv as [<-|Hv]; [vm_compute; discriminate|]); destruct Hv.
  - unfold mixed. repeat (constructor; [first [exact Logic.I|vm_compute; repeat split; congruence]|]). constructor.
Qed.
Example C119_limit_ex : NoDup [ka; kb; kc] /\ Forall wf_key [ka; kb; kc] /\ 1 < pparts (packet_of three 0).
Proof.
  split; [repeat constructor; cbn; intuition discriminate|]. split; [|reflexivity]. repeat constructor; cbn; lia.
Qed.
Example C119_once_ex : match history 5 in_header start [Part ka (mkPk 3 [] 3 [] [] 1 [7]); Part ka (mkPk 3 [] 3 [] [] 1 [7]); Part kb (packet_of three 0)] with
  | Ok (out, st) => map fst out = [ka] /\ map fst (waiting st) = [kb] | _ => False end /\ between_cubes 1 (Tidy 5 3) /\ tidied [Tidy 5 3] * 1 < 16.
Proof. vm_compute. repeat split; auto; discriminate. Qed.
Example C119_removed_ex : exists o st st1 st2, history 5 in_header start [Part kb (packet_of three 0)] = Ok (o, st) /\ map fst (waiting st) = [kb] /\
  react 5 in_header st (Tidy (100 * 1000000) 3) = Ok ([], st1) /\ waiting st1 = [] /\ react 5 in_header st (Tidy (100 * 1000000 - 1) 3) = Ok ([], st2) /\ map fst (waiting st2) = [kb].
Proof.
  destruct start_inv as [I G]. set (st := mkParts (seen_filter start) [(kb, mkR [Some (packet_of three 0); None; None] 20 1)]).
  destruct (tidy_ok in_header st (100 * 1000000) 3 _ G I ltac:(lia)) as (f1 & E1 & _). destruct (tidy_ok in_header st (100 * 1000000 - 1) 3 _ G I ltac:(lia)) as (f2 & E2 & _).
  eexists [], st, _, _. split; [vm_compute; reflexivity|]. split; [reflexivity|]. cbn [react]. rewrite E1, E2. cbn [obind]. split; [reflexivity|]. split; [vm_compute; reflexivity|]. split; [reflexivity|]. vm_compute. reflexivity.
Qed.

Print Assumptions C119_apart_partial.
Print Assumptions C119_waits.
Print Assumptions C119_once_partial.
Print Assumptions C119_removed.
Print Assumptions C119_single.
Print Assumptions C119_limit_refuted.
