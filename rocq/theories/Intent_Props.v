(** C59, C60, C62, C63: who may use a data channel, for every history of intents, decisions, checks, own intents and messages. *)
From Verif Require Import Base Intent_Model Intent_Spec Intent_Proofs.

Ltac proj := cbn [objs peers own cur mep sess ask back outbox sent accepted set_objs set_peers set_own set_cur set_mep set_sess set_ask set_back set_outbox set_sent set_accepted] in *.

(** a receiving channel without realm, open audience; a node with its identity 77 *)
Definition rcv := mkConf true false 77 0 false.
Definition snd_ := mkConf false false 77 0 false.
Definition tA := mkTok 1 [65] [83] [] 11 1001 0 10 0.
Definition tB := mkTok 2 [66] [83] [] 12 1002 0 10 0.
Definition tO := mkTok 9 [79] [83] [] 19 2001 0 10 0.
Definition tO2 := mkTok 10 [79] [83] [] 20 2002 0 10 0.
(** everything valid; the receiving callback says yes to the uuids in [l] *)
Definition says (l : list Z) := mkEnv (fun _ => true) (fun _ => true) 0%nat (fun _ => true) (fun t => Some (existsb (Z.eqb (t_uuid t)) l)) (fun _ => None) (fun _ => false).
Definition expired (l : list Z) := mkEnv (fun t => negb (existsb (Z.eqb (t_uuid t)) l)) (fun _ => true) 0%nat (fun _ => true) (fun _ => None) (fun _ => None) (fun _ => false).
Definition join (t : tok) := [(says [1], Intent t); (says [1], Authz); (says [1], Back)].
Definition own1 := [(says [], NewOwn tO 100); (says [], Announce)].

(** C59.  As long as nobody asks for a single partner: every session key and every secret the own key was sent under belongs to the
    key of a peer whose intent came in valid, fulfilled policy and audience, and got a yes from a callback while it was valid; and
    so does every intent others get to see. *)
Theorem C59_only_accepted_partial : forall c m h s, several m -> all_several h -> run c h (start m) = Ok s ->
  (forall i se k, find i (sess s) = Some se -> rooted (s_read se) k \/ rooted (s_write se) k -> key_accepted c h k) /\
  (forall x k, In x (sent s) -> rooted x k -> key_accepted c h k) /\
  (forall e sel o, In o (get_all e sel s) \/ get_token e sel s = Some o -> e_valid e (tk s o) = true /\ sel (tk s o) = true /\ key_accepted c h (t_kx (tk s o))).
Proof.
  intros c m h s Sm Al R. pose proof (reach_inv c m h s Sm Al R) as Iv. split; [|split].
  - intros i se k F Ro. apply find_in in F. pose proof (i_sess _ _ _ Iv) as G. rewrite Forall_forall in G. destruct (G _ F) as (A & B & _). destruct Ro; [apply A|apply B]; auto.
  - intros x k I Ro. pose proof (i_sent _ _ _ Iv) as G. rewrite Forall_forall in G. apply (G _ I); auto.
  - intros e sel o G.
    assert (X : In o (peers s) /\ e_valid e (tk s o) = true /\ sel (tk s o) = true /\ auth s o = true).
    { destruct G as [G|G]; [unfold get_all in G; apply filter_In in G|unfold get_token in G; apply find_some in G]; destruct G as [I G]; apply andb_true_iff in G; destruct G as [G1 G2]; apply andb_true_iff in G1; destruct G1; auto. }
    destruct X as (I & V & Q & Au). split; auto. split; auto. apply (i_auth _ _ _ Iv); auto. pose proof (i_peers _ _ _ Iv) as P. rewrite Forall_forall in P. auto.
Qed.
Example C59_only_ex : exists s, run rcv (own1 ++ join tA ++ join tB) (start 0) = Ok s /\ all_several (own1 ++ join tA ++ join tB) /\
  map (fun o => t_uuid (tk s o)) (peers s) = [2; 1] /\ map (fun o => t_uuid (tk s o)) (get_all (says []) (fun _ => true) s) = [1] /\
  keyed s tA /\ no_sessions s tB.
Proof. eexists. split; [vm_compute; reflexivity|]. split; [repeat constructor|]. split; [reflexivity|]. split; [reflexivity|]. split; split; reflexivity. Qed.

(** A peer gets its sessions when the decision comes back, if nothing else with the same key and uuid waits for a decision, the node
    has an own intent and the ids are not taken. *)
Theorem C59_gets_session_partial : forall c m h s e o r, several m -> all_several h -> run c h (start m) = Ok s ->
  back s = o :: r -> auth s o = true -> e_valid e (tk s o) = true -> e_policy e (tk s o) = true -> e_kx e (tk s o) = true ->
  (let aud := if x_protected c then t_aud (tk s o) else 0 in x_me c = aud \/ x_realm c = aud) -> 0 < t_max (tk s o) -> own s <> [] ->
  (forall x, In x (peers s) -> t_kx (tk s x) = t_kx (tk s o) -> t_uuid (tk s x) = t_uuid (tk s o) -> auth s x = true) ->
  let cu := if x_recv c then cur s else t_fp (tk s (hd 0%nat (own s))) in
  (x_recv c = true \/ t_fp (tk s o) <> cu) -> private_id (t_fp (tk s o)) cu <> initial_id (t_fp (tk s o)) cu ->
  find (private_id (t_fp (tk s o)) cu) (sess s) = None -> find (initial_id (t_fp (tk s o)) cu) (sess s) = None ->
  exists s', step c (e, Back) s = Ok s' /\ cur s' = cu /\ keyed s' (tk s o) /\ In o (peers s') /\ auth s' o = true.
Proof.
  intros c m h s e o r Sm Al R B Au V P K M Mx Ow Pe cu Q D N1 N2. pose proof (reach_inv c m h s Sm Al R) as Iv.
  assert (Fo : foreign s o). { pose proof (i_back _ _ _ Iv) as F. rewrite B in F. inversion F as [|? ? [X _] _]; auto. }
  apply (grant c e s o r); auto. apply Iv. apply (i_sev _ _ _ Iv); auto. apply Fo.
Qed.
Example C59_gets_ex : exists s, run snd_ ([(says [], NewOwn tO 100)] ++ [(says [1], Intent tA); (mkEnv (fun _ => true) (fun _ => true) 0%nat (fun _ => true) (fun _ => None) (fun _ => Some true) (fun _ => false), Authz)]) (start 0) = Ok s /\
  exists o, back s = [o] /\ tk s o = tA /\ auth s o = true /\ own s <> [] /\ private_id 1001 2001 <> initial_id 1001 2001 /\ sess s <> [] /\
    exists s', step snd_ (says [], Back) s = Ok s' /\ keyed s' tA /\ outbox s' = [initial_id 1001 2001].
Proof.
  eexists. split; [vm_compute; reflexivity|]. exists 1%nat. split; [reflexivity|]. split; [reflexivity|]. split; [reflexivity|]. split; [discriminate|].
  split; [vm_compute; discriminate|]. split; [discriminate|]. eexists. split; [vm_compute; reflexivity|]. split; [split|]; reflexivity.
Qed.

(** Once a node made its first own intent, and as long as no own intent is found invalid by a check, no history ends in undefined
    behaviour. *)
Theorem C59_no_ub_partial : forall c m e t n h,
  (forall e' t' n' e2, In (e', NewOwn t' n') ((e, NewOwn t n) :: h) -> In (e2, Check) h -> e_valid e2 t' = true) ->
  exists s, run c ((e, NewOwn t n) :: h) (start m) = Ok s.
Proof.
  intros c m e t n h Al. cbn [run step]. set (H := (e, NewOwn t n) :: h) in *.
  assert (F : forall e t n, In (e, NewOwn t n) H -> fine_tok H t).
  { intros e' t' n' I e2 I2. eapply Al; eauto. destruct I2 as [[=]|]; auto. }
  destruct (run_fine c H h (fun y Iy => or_intror Iy) F (new_own c t n (start m))) as (s & R & _); [|cbn [obind]; eauto].
  unfold new_own. destruct (x_recv c); constructor; cbn; try constructor; try discriminate; auto; split; auto; apply (F e t n); left; auto.
Qed.
Example C59_no_ub_ex : exists s, run rcv (own1 ++ join tA ++ [(says [], Check); (says [], NewOwn tO2 200); (expired [1], Check)]) (start 0) = Ok s /\ peers s = [].
Proof. eexists. split; vm_compute; reflexivity. Qed.

(** An intent that asks for a single sender takes the place, and the permission, of the intent of an accepted peer with the same
    issuer text and subject: sessions are made with a key nobody said yes to. *)
Definition tM := mkTok 3 [65] [83] [] 13 1003 16 10 0.
Theorem C59_takeover_refuted : exists h s se i, run rcv h (start 0) = Ok s /\ find i (sess s) = Some se /\ rooted (s_read se) 13 /\ ~ key_accepted rcv h 13.
Proof.
  exists (own1 ++ join tA ++ [(says [1], Intent tM)]). eexists. eexists. exists (private_id 1003 2001).
  split; [vm_compute; reflexivity|]. split; [vm_compute; reflexivity|]. split; [reflexivity|].
  intros (t & e & K & (e1 & I & _) & Ia & _ & Y). cbn in I, Ia.
  assert (E : t = tA \/ t = tM) by (clear - I; intuition congruence). destruct E as [-> | ->]; [discriminate|].
  assert (e = says [1]) by (clear - Ia; intuition congruence). subst e. destruct Y as [Y|[Y|Y]]; discriminate.
Qed.

(** The uuid of the accepted intent is enough: issuer, subject and realm may all be different. *)
Definition tU := mkTok 1 [67] [84] [85] 14 1005 16 10 0.
Theorem C59_takeover_uuid_refuted : exists h s se i, run rcv h (start 0) = Ok s /\ find i (sess s) = Some se /\ rooted (s_read se) 14 /\
  ~ key_accepted rcv h 14 /\ (forall e t, In (e, Intent t) h -> t = tA \/ t_issuer t <> t_issuer tA /\ t_subject t <> t_subject tA /\ t_realm t <> t_realm tA).
Proof.
  set (ask_key := mkEnv (fun _ => true) (fun _ => true) 0%nat (fun _ => true) (fun t => Some (t_kx t =? 11)) (fun _ => None) (fun _ => false)).
  exists (own1 ++ [(ask_key, Intent tA); (ask_key, Authz); (ask_key, Back); (ask_key, Intent tU)]). eexists. eexists. exists (private_id 1005 2001).
  split; [vm_compute; reflexivity|]. split; [vm_compute; reflexivity|]. split; [reflexivity|]. split.
  - intros (t & e & K & (e1 & I & _) & Ia & _ & Y). cbn in I, Ia.
    assert (e = ask_key) by (clear - Ia; intuition congruence). subst e. unfold said_yes in Y. cbn in Y. rewrite K in Y.
    destruct Y as [Y|[Y|Y]]; discriminate.
  - intros e t I. cbn in I. assert (E : t = tA \/ t = tU) by (clear - I; intuition congruence).
    destruct E as [-> | ->]; [left; reflexivity|right]. cbn. split; [discriminate|]. split; discriminate.
Qed.

(** An intent with the key and uuid of an accepted one, but of another issuer, is accepted without a question. *)
Theorem C59_issuer_refuted : exists h s o, run rcv h (start 0) = Ok s /\ In o (get_all (says []) (fun _ => true) s) /\ t_issuer (tk s o) = [66] /\
  (forall e t, In (e, Authz) h -> t_issuer t = [66] -> e_in e t = Some false /\ e_out e t = None /\ e_global e t = false).
Proof.
  set (ask_issuer := mkEnv (fun _ => true) (fun _ => true) 0%nat (fun _ => true) (fun t => Some (text_eqb (t_issuer t) [65])) (fun _ => None) (fun _ => false)).
  exists (own1 ++ [(says [], Intent tA); (ask_issuer, Authz); (says [], Back); (says [], Intent (mkTok 1 [66] [83] [] 11 1004 0 10 0))]). eexists. exists 2%nat.
  split; [vm_compute; reflexivity|]. split; [left; reflexivity|]. split; [reflexivity|].
  intros e t I E. cbn in I. assert (e = ask_issuer) by intuition congruence. subst e. cbn. rewrite E. auto.
Qed.

(** With a realm set, and a channel open to everybody, no intent ever gets in, whatever the callbacks say. *)
Theorem C59_realm_refuted : forall c m h s, x_protected c = false -> x_me c <> 0 -> x_realm c <> 0 -> run c h (start m) = Ok s -> peers s = [] /\ accepted s = [].
Proof.
  intros c m h s P M R. assert (A : forall e o s, handle_intent c e o s = Ok s).
  { intros e o z. unfold handle_intent. rewrite P. replace ((x_me c =? 0) || (x_realm c =? 0)) with false; [rewrite andb_false_r; auto|]. lia. }
  enough (G : forall h s s', run c h s = Ok s' -> peers s = [] /\ ask s = [] /\ back s = [] /\ accepted s = [] -> peers s' = [] /\ ask s' = [] /\ back s' = [] /\ accepted s' = []).
  { intros E. destruct (G _ _ _ E) as (? & _ & _ & ?); cbn; auto. }
  clear h s. induction h as [|[e x] h IH]; intros s s'; cbn [run]; [intros [= <-]; auto|]. destruct (step c (e, x) s) as [s1| |] eqn:E; cbn [obind]; try discriminate.
  intros Ru (Q1 & Q2 & Q3 & Q4). apply (IH s1); auto. clear IH Ru. destruct x; cbn [step] in E; rewrite ?A, ?Q2, ?Q3 in E.
  - destruct (e_valid e t); injection E as <-; auto.
  - injection E as <-; auto.
  - injection E as <-; auto.
  - assert (Up : forall recv l o z z', update_session recv e true l o z = Ok z' -> peers z' = peers z /\ ask z' = ask z /\ back z' = back z /\ accepted z' = accepted z).
    { intros recv l o z z'. unfold update_session. destruct l; [discriminate|]. destruct (_ && _); intros [= <-]; auto. }
    assert (Co : forall z z', check_own c e z = Ok z' -> peers z' = peers z /\ ask z' = ask z /\ back z' = back z /\ accepted z' = accepted z).
    { intros z z'. unfold check_own. destruct (first_invalid e z (own z)); [|intros [= <-]; auto]. destruct (update_session _ _ _ _ _ _) eqn:U; cbn [obind]; try discriminate.
      intros [= <-]. proj. eauto. }
    unfold intent_check in E. destruct (x_recv c).
    + unfold check_peers in E. rewrite Q1 in E. cbn [first_invalid List.find obind] in E. destruct (Co _ _ E) as (-> & -> & -> & ->). auto.
    + destruct (check_own c e s) as [s2| |] eqn:Ce; cbn [obind] in E; try discriminate. destruct (Co _ _ Ce) as (C1 & C2 & C3 & C4).
      unfold check_peers in E. rewrite C1, Q1 in E. cbn [first_invalid List.find] in E. injection E as <-. rewrite C1, C2, C3, C4. auto.
  - injection E as <-. unfold new_own. destruct (x_recv c); proj; destruct (own s); proj; auto; destruct (replace _ _ _ _) as [[? ?]|]; proj; auto.
  - injection E as <-. unfold announce. destruct (own s); auto.
  - destruct (find _ _) as [se|]; [|injection E as <-; auto]. destruct (s_type se); try (injection E as <-; auto; fail). destruct (x_recv c); injection E as <-; auto.
  - destruct (outbox s); injection E as <-; auto. destruct (find _ _); auto.
Qed.
Example C59_realm_ex : exists s, run (mkConf true false 77 5 false) (own1 ++ join tA) (start 0) = Ok s /\ peers s = [].
Proof. eexists. split; vm_compute; reflexivity. Qed.

(** An intent that is accepted before the node made its own first one (the periodic check makes it): the head of an empty list is
    read. *)
Theorem C59_no_own_refuted : run rcv (join tA) (start 0) = UB /\ key_accepted rcv (join tA) 11.
Proof.
  split; [vm_compute; reflexivity|]. exists tA, (says [1]). split; [reflexivity|]. split; [|split; [cbn; auto|split; [reflexivity|left; reflexivity]]].
  exists (says [1]). split; [cbn; auto|]. split; [reflexivity|]. split; [reflexivity|]. discriminate.
Qed.
(** The own intent becomes invalid (say, with the identity) while no peer is known: the same. *)
Theorem C59_expired_own_refuted : run rcv (own1 ++ [(expired [9], Check)]) (start 0) = UB /\ run snd_ (own1 ++ [(expired [9], Check)]) (start 0) = UB.
Proof. split; vm_compute; reflexivity. Qed.

(** C60.  If no callback ever says yes, or the node is the client of a realm: no secret of a session involves a peer's key, nothing
    is sent to peers and nobody is shown as partner; for every history, also with single partners. *)
Theorem C60_nobody_partial : forall c m h s, nobody c h -> run c h (start m) = Ok s ->
  (forall i se k, find i (sess s) = Some se -> ~ rooted (s_read se) k /\ ~ rooted (s_write se) k) /\ sent s = [] /\
  forall e sel, get_all e sel s = [] /\ get_token e sel s = None.
Proof.
  intros c m h s No R. assert (Iv : J h false s) by (eapply (run_J c h false h (fun _ => No)); eauto using incl_refl, start_J). split; [|split].
  - intros i se k F. apply find_in in F. pose proof (j_sess _ _ _ Iv) as G. rewrite Forall_forall in G. destruct (G _ F) as (_ & A & _). cbn [snd] in A.
    split; intros Ro; assert (false = true) by eauto; discriminate.
  - destruct (j_sent _ _ _ Iv); auto; discriminate.
  - assert (N : forall o, In o (peers s) -> auth s o = false).
    { intros o I. destruct (auth s o) eqn:A; auto. pose proof (j_peers _ _ _ Iv) as P. rewrite Forall_forall in P. pose proof (j_auth _ _ _ Iv o (P _ I) A). discriminate. }
    intros e sel. unfold get_all, get_token. split.
    + induction (peers s) as [|o l IH]; cbn [filter]; auto. rewrite (N o), andb_false_r by (left; auto). cbn [andb]. apply IH. intros x I. apply N. right; auto.
    + induction (peers s) as [|o l IH]; cbn [List.find]; auto. rewrite (N o), andb_false_r by (left; auto). apply IH. intros x I. apply N. right; auto.
Qed.
Example C60_nobody_ex : let h := own1 ++ [(says [], Intent tA); (says [], Authz); (says [], Intent tM); (says [], Authz)] in
  nobody rcv h /\ exists s, run rcv h (start 0) = Ok s /\ length (peers s) = 1%nat /\ mep s = 16 /\ length (sess s) = 1%nat.
Proof.
  cbv zeta. split.
  - right. intros e t I Y. cbn in I. assert (E : e = says []) by (clear - I; intuition congruence). subst e. destruct Y as [Y|[Y|Y]]; discriminate.
  -  eexists. split; [vm_compute; reflexivity|]. split; [reflexivity|]. split; reflexivity.
Qed.

(** The answer of the user decides, if only the callback of this side is set and the global one says no, or only the global one. *)
Theorem C60_answer_partial : forall c e s o r, ask s = o :: r -> (o < length (objs s))%nat -> auth s o = false -> e_valid e (tk s o) = true -> x_client c = false ->
  (e_in e (tk s o) = None /\ e_out e (tk s o) = None) \/
  (e_global e (tk s o) = false /\ (if x_recv c then e_out e (tk s o) else e_in e (tk s o)) = None) ->
  exists s', step c (e, Authz) s = Ok s' /\ auth s' o = wish c e (tk s o) /\ (In o (back s') <-> In o (back s) \/ wish c e (tk s o) = true).
Proof.
  intros c e s o r A L Au V Cl Q. cbn [step]. rewrite A. change (tk (set_ask r s) o) with (tk s o). rewrite V. eexists. split; [reflexivity|].
  unfold handle_authz. change (auth (set_ask r s) o) with (auth s o). rewrite Au, Cl. change (tk (set_ask r s) o) with (tk s o). rewrite andb_true_r.
  assert (E : decision e (tk s o) = wish c e (tk s o)).
  { unfold decision, wish. destruct Q as [[-> ->]|[-> Q]].
    - destruct (x_recv c); auto.
    - destruct (x_recv c); rewrite Q; [destruct (e_in e (tk s o)) as [[]|]|destruct (e_out e (tk s o)) as [[]|]]; auto. }
  rewrite E. destruct (wish c e (tk s o)).
  - destruct (set_auth_facts (set_ask r s) o true L) as (_ & _ & X & _). split; [exact X|].
    change (In o (back s ++ [o]) <-> In o (back s) \/ true = true). rewrite in_app_iff. cbn. tauto.
  - split; [exact Au|]. change (In o (back s) <-> In o (back s) \/ false = true). intuition discriminate.
Qed.
Example C60_answer_ex : exists s, run rcv (own1 ++ [(says [], Intent tA)]) (start 0) = Ok s /\ ask s = [1%nat] /\ auth s 1 = false /\ tk s 1 = tA /\
  wish rcv (says [1]) tA = true /\ wish rcv (says [2]) tA = false.
Proof. eexists. split; [vm_compute; reflexivity|]. repeat split; reflexivity. Qed.

(** The callback of the channel says no, the global one yes: accepted.  (The comment in the code: "if not, then call the global authz
    function".) *)
Theorem C60_no_overruled_refuted : exists h s, run rcv h (start 0) = Ok s /\ keyed s tA /\ (forall e, In (e, Authz) h -> wish rcv e tA = false).
Proof.
  set (deny := mkEnv (fun _ => true) (fun _ => true) 0%nat (fun _ => true) (fun _ => Some false) (fun _ => None) (fun _ => true)).
  exists (own1 ++ [(deny, Intent tA); (deny, Authz); (deny, Back)]). eexists. split; [vm_compute; reflexivity|]. split; [split; reflexivity|].
  intros e I. cbn in I. assert (e = deny) by intuition congruence. subst e. reflexivity.
Qed.
(** The channel is used in both directions: the answer of the sending callback replaces that of the receiving one, both ways. *)
Theorem C60_other_direction_refuted :
  (exists h s, run rcv h (start 0) = Ok s /\ keyed s tA /\ (forall e, In (e, Authz) h -> wish rcv e tA = false)) /\
  (exists h s, run rcv h (start 0) = Ok s /\ no_sessions s tA /\ (exists e, In (e, Authz) h /\ wish rcv e tA = true) /\ ask s = [] /\ back s = []).
Proof.
  set (q := fun a b => mkEnv (fun _ => true) (fun _ => true) 0%nat (fun _ => true) (fun _ => Some a) (fun _ => Some b) (fun _ => false)). split.
  - exists (own1 ++ [(q false true, Intent tA); (q false true, Authz); (q false true, Back)]). eexists. split; [vm_compute; reflexivity|]. split; [split; reflexivity|].
    intros e I. cbn in I. assert (e = q false true) by intuition congruence. subst e. reflexivity.
  - exists (own1 ++ [(q true false, Intent tA); (q true false, Authz); (q true false, Back)]). eexists. split; [vm_compute; reflexivity|]. split; [split; reflexivity|].
    split; [|auto]. exists (q true false). split; [cbn; auto 10|reflexivity].
Qed.
(** The same intent comes twice before the decision is back (peers repeat their intents): the yes is lost, the user is asked again. *)
Theorem C60_yes_lost_refuted : exists h s, run rcv h (start 0) = Ok s /\ no_sessions s tA /\ back s = [] /\ accepted s = [1%nat] /\
  (forall o, In o (peers s) -> auth s o = false) /\ key_accepted rcv h 11.
Proof.
  exists (own1 ++ [(says [1], Intent tA); (says [1], Intent tA); (says [1], Authz); (says [1], Back)]). eexists. split; [vm_compute; reflexivity|]. split; [split; reflexivity|].
  split; [reflexivity|]. split; [reflexivity|]. split; [intros o [<-|[]]; reflexivity|].
  exists tA, (says [1]). split; [reflexivity|]. split; [|split; [cbn; auto 10|split; [reflexivity|left; reflexivity]]].
  exists (says [1]). split; [cbn; auto|]. split; [reflexivity|]. split; [reflexivity|]. discriminate.
Qed.

(** C62.  As many checks as intents known, with valid own intents: exactly the valid intents are left, and the invalid ones have no
    session under the current id any more. *)
Theorem C62_ends_partial : forall c m h s e, several m -> all_several h -> run c h (start m) = Ok s ->
  own s <> [] -> (forall o, In o (own s) -> e_valid e (tk s o) = true) ->
  exists s', run c (repeat (e, Check) (length (peers s))) s = Ok s' /\ cur s' = cur s /\
    peers s' = filter (fun o => e_valid e (tk s o)) (peers s) /\
    (forall o, In o (peers s) -> e_valid e (tk s o) = false -> x_recv c = true \/ t_fp (tk s o) <> cur s -> no_sessions s' (tk s o)).
Proof.
  intros c m h s e Sm Al R Ow V. pose proof (reach_uniq c m h s Sm Al R) as U.
  destruct (checks c e (length (peers s)) s U Ow) as (s' & E & _ & C & P & _ & N); auto. apply Forall_forall. exact V.
  exists s'. auto.
Qed.
Example C62_ends_ex : exists s, run rcv (own1 ++ join tA ++ [(says [1; 2], Intent tB); (says [1; 2], Authz); (says [1; 2], Back)]) (start 0) = Ok s /\
  map (fun o => t_uuid (tk s o)) (peers s) = [2; 1] /\ keyed s tA /\ keyed s tB /\
  exists s', run rcv (repeat (expired [1], Check) 2) s = Ok s' /\ map (fun o => t_uuid (tk s' o)) (peers s') = [2] /\ no_sessions s' tA /\ keyed s' tB.
Proof.
  eexists. split; [vm_compute; reflexivity|]. split; [reflexivity|]. split; [split; reflexivity|]. split; [split; reflexivity|].
  eexists. split; [vm_compute; reflexivity|]. split; [reflexivity|]. split; split; reflexivity.
Qed.

(** The own intent was replaced meanwhile (it is, before it expires): the sessions made with the former one stay for good. *)
Theorem C62_former_id_refuted : exists h s i se, run rcv h (start 0) = Ok s /\ peers s = [] /\ find i (sess s) = Some se /\ rooted (s_read se) 11 /\
  forall e n, (forall o, In o (own s) -> e_valid e (tk s o) = true) -> run rcv (repeat (e, Check) n) s = Ok s.
Proof.
  exists (own1 ++ join tA ++ [(says [], NewOwn tO2 200); (says [], Announce); (expired [1], Check)]). eexists. exists (private_id 1001 2001). eexists.
  split; [vm_compute; reflexivity|]. split; [reflexivity|]. split; [reflexivity|]. split; [reflexivity|].
  intros e n V. induction n as [|n IH]; cbn [repeat run]; auto.
  match goal with |- obind (step rcv (e, Check) ?z) _ = _ => assert (E : step rcv (e, Check) z = Ok z) end.
  { cbn [step]. unfold intent_check. cbn [x_recv rcv]. unfold check_peers. cbn [peers first_invalid List.find obind]. unfold check_own. cbn [own] in *.
    unfold first_invalid. cbn [List.find]. rewrite (V 2%nat) by (left; auto). reflexivity. }
  rewrite E. cbn [obind]. apply IH.
Qed.
(** Keys a sender handed over stay when its intent ends. *)
Theorem C62_handed_over_refuted : exists h s se, run rcv h (start 0) = Ok s /\ peers s = [] /\ no_sessions s tA /\ find 1001 (sess s) = Some se /\ rooted (s_read se) 11.
Proof.
  exists (own1 ++ join tA ++ [(says [], Message (initial_id 1001 2001) [(1001, 555)]); (expired [1], Check)]). eexists. eexists.
  split; [vm_compute; reflexivity|]. split; [reflexivity|]. split; [split; reflexivity|]. split; reflexivity.
Qed.

(** C63.  A key agreed with a peer is found only under ids made from an intent that came in with that peer's key; for every history. *)
Theorem C63_ids_partial : forall c m h s i se k, run c h (start m) = Ok s -> find i (sess s) = Some se -> s_read se = Kx k \/ s_write se = Kx k -> id_of h k i.
Proof.
  intros c m h s i se k R F K.
  assert (Iv : J h true s). { eapply (run_J c h true h); eauto using incl_refl, start_J. discriminate. }
  apply find_in in F. pose proof (j_sess _ _ _ Iv) as G. rewrite Forall_forall in G. destruct (G _ F) as (A & _). apply A. auto.
Qed.
Example C63_ids_ex : exists s se, run rcv (own1 ++ join tA) (start 0) = Ok s /\ find (initial_id 1001 2001) (sess s) = Some se /\ s_read se = Kx 11.
Proof. eexists. eexists. split; [vm_compute; reflexivity|]. split; reflexivity. Qed.

(** An accepted sender replaces the key another sender handed over: the id of a session in a message is not compared with the
    sender of the message. *)
Theorem C63_replaced_refuted : exists h s s' se se' x,
  run rcv h (start 0) = Ok s /\ find 1002 (sess s) = Some se /\ rooted (s_read se) 12 /\
  step rcv x s = Ok s' /\ find 1002 (sess s') = Some se' /\ rooted (s_read se') 11.
Proof.
  exists (own1 ++ join tA ++ [(says [1; 2], Intent tB); (says [1; 2], Authz); (says [1; 2], Back); (says [], Message (initial_id 1002 2001) [(1002, 777)])]).
  eexists. eexists. eexists. eexists. exists (says [], Message (initial_id 1001 2001) [(1002, 555)]).
  split; [vm_compute; reflexivity|]. split; [reflexivity|]. split; [reflexivity|]. split; [vm_compute; reflexivity|]. split; reflexivity.
Qed.
(** An accepted sender hands over a key under the id another intent is going to use: that peer's session gets the key of zeros. *)
Theorem C63_zero_refuted : exists h s se, run rcv h (start 0) = Ok s /\ key_accepted rcv h 12 /\
  find (private_id 1002 2001) (sess s) = Some se /\ s_read se = Zero /\ s_write se = Zero.
Proof.
  exists (own1 ++ join tA ++ [(says [], Message (initial_id 1001 2001) [(private_id 1002 2001, 555)]); (says [1; 2], Intent tB); (says [1; 2], Authz); (says [1; 2], Back)]).
  eexists. eexists. split; [vm_compute; reflexivity|]. split; [|split; [vm_compute; reflexivity|split; reflexivity]].
  exists tB, (says [1; 2]). split; [reflexivity|]. split; [|split; [cbn; auto 20|split; [reflexivity|left; reflexivity]]].
  exists (says [1; 2]). split; [cbn; auto 20|]. split; [reflexivity|]. split; [reflexivity|]. discriminate.
Qed.

Print Assumptions C59_only_accepted_partial.
Print Assumptions C59_gets_session_partial.
Print Assumptions C59_no_ub_partial.
Print Assumptions C59_takeover_refuted.
Print Assumptions C59_takeover_uuid_refuted.
Print Assumptions C59_issuer_refuted.
Print Assumptions C59_realm_refuted.
Print Assumptions C59_no_own_refuted.
Print Assumptions C59_expired_own_refuted.
Print Assumptions C60_nobody_partial.
Print Assumptions C60_answer_partial.
Print Assumptions C60_no_overruled_refuted.
Print Assumptions C60_other_direction_refuted.
Print Assumptions C60_yes_lost_refuted.
Print Assumptions C62_ends_partial.
Print Assumptions C62_former_id_refuted.
Print Assumptions C62_handed_over_refuted.
Print Assumptions C63_ids_partial.
Print Assumptions C63_replaced_refuted.
Print Assumptions C63_zero_refuted.
