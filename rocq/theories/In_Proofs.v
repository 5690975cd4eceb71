(** Proofs about tokens in messages and the handlers of messages. *)
From Verif Require Import Base Dhkey_Model Dhkey_Proofs Tree_Model Tree_Spec Tree_Props Cbor_Model Treeval_Model Treeval_Spec Treeval_Proofs Treeval_Props Wire_Model Data_Model.
From Verif Require Import Token_Model Token_Spec Token_Proofs TokenData_Props In_Model In_Spec.

(** *** Texts *)
Lemma cstr_short n s : (length s < n)%nat -> Forall (fun b => 1 <= b <= 255) s -> cstr n s = s.
Proof.
  intros L F. unfold cstr. rewrite firstn_all2 by lia. apply until0_all. eapply Forall_impl; [|exact F]. intros a Ha. cbn in Ha. lia.
Qed.
Lemma text_of_ok n buf : (n <= 255)%nat -> text_in n buf -> exists s, text_of buf = Ok (VStr s) /\ strncpy n s = buf /\ storable (VStr s) /\ Z.of_nat (length s) < Z.of_nat n /\ length s <> 1%nat /\ Forall (fun b => 1 <= b <= 255) s.
Proof.
  intros Hn (s & E & L & N & F). exists s. unfold text_of. subst buf. unfold strncpy. rewrite (cstr_short n s L F). cbv zeta.
  assert (X : exists m, (n - length s)%nat = S m) by (exists (n - length s - 1)%nat; lia). destruct X as [m ->]. cbn [repeat].
  assert (X : existsb (Z.eqb 0) (s ++ 0 :: repeat 0 m) = true) by (rewrite existsb_app; cbn [existsb]; change (0 =? 0) with true; apply orb_true_r).
  rewrite X. split.
  - f_equal. f_equal. apply until0_app. eapply Forall_impl; [|exact F]. intros a Ha. cbn in Ha. lia.
  - split; [reflexivity|]. split; [|split; [lia|auto]]. constructor; auto; lia.
Qed.

(** *** Entries *)
Lemma entry_in k v : forall l, NoDup (map fst l) -> (entry k l = Some v <-> In (UStr k, v) l).
Proof.
  induction l as [|[u w] l IH]; intros N; cbn [entry]; [split; [discriminate|intros []]|]. inversion N as [|? ? N1 N2]; subst. cbn [map fst] in *.
  unfold same_key. destruct u as [s|i|d|i|kk|b]; cbn [In]; try (rewrite IH by exact N2; split; [auto|intros [E|E]; [discriminate E|exact E]]).
  destruct (list_eq_dec Z.eq_dec s k) as [->|D].
  - split; [intros E; injection E as ->; auto|]. intros [E|E]; [injection E as ->; reflexivity|]. exfalso. apply N1. apply in_map_iff. exists (UStr k, v). auto.
  - rewrite IH by exact N2. split; [auto|]. intros [E|E]; [injection E as -> _; contradiction|exact E].
Qed.
Lemma entry_bindings h tree : keys_of_kind Strings h -> vrun h = Ok tree -> forall k, entry k (entries tree) = bindings h no_bindings (UStr k).
Proof.
  intros Hk Hr k. destruct (C18_map (VOther 0) stored_bytes val_bytes Strings h Hk) as (t & E & _ & I & N & _).
  assert (t = tree) by (unfold vrun in Hr; rewrite E in Hr; injection Hr; auto). subst t.
  destruct (bindings h no_bindings (UStr k)) as [v|] eqn:B.
  - apply (entry_in k v _ N). apply I. exact B.
  - destruct (entry k (entries tree)) as [w|] eqn:X; [|reflexivity]. apply (entry_in k w _ N) in X. apply I in X. congruence.
Qed.
Definition set_all (l : list (list Z * tval)) : list (op (V := tval)) := map (fun e => Replace (UStr (fst e)) (snd e)) l.
Lemma bindings_set l : forall m k, bindings (set_all l) m (UStr k) =
  match find (fun e => if list_eq_dec Z.eq_dec (fst e) k then true else false) (rev l) with Some e => Some (snd e) | None => m (UStr k) end.
Proof.
  induction l as [|[a v] l IH] using rev_ind; intros m k; [reflexivity|]. unfold set_all in *. rewrite map_app, rev_app_distr. cbn [map rev app find fst snd].
  assert (B : forall h o (m : ukey -> option tval) u, bindings (h ++ [o]) m u = change o (bindings h m) u).
  { clear. induction h as [|x h IH]; intros o m u; cbn [app bindings]; [reflexivity|apply IH]. }
  rewrite B. cbn [change]. destruct (list_eq_dec Z.eq_dec a k) as [->|D].
  - destruct (ukey_eq_dec (UStr k) (UStr k)) as [_|D]; [reflexivity|contradiction].
  - destruct (ukey_eq_dec (UStr k) (UStr a)) as [D'|_]; [injection D' as ->; contradiction|]. apply IH.
Qed.
Lemma bindings_from l : forall u v, bindings (set_all l) no_bindings u = Some v -> exists k, u = UStr k /\ In (k, v) l.
Proof.
  induction l as [|[a w] l IH] using rev_ind; intros u v H; [discriminate H|]. unfold set_all in *. rewrite map_app in H. cbn [map fst snd] in H.
  assert (B : forall h o (m : ukey -> option tval) u, bindings (h ++ [o]) m u = change o (bindings h m) u).
  { clear. induction h as [|x h IH]; intros o m u; cbn [app bindings]; [reflexivity|apply IH]. }
  rewrite B in H. cbn [change] in H. destruct (ukey_eq_dec u (UStr a)) as [->|D].
  - injection H as ->. exists a. split; [reflexivity|]. apply in_or_app. right. left. reflexivity.
  - destruct (IH u v H) as (k & E & I). exists k. split; [exact E|]. apply in_or_app. auto.
Qed.
Lemma good_keys l : Forall (fun e : list Z * tval => Forall (fun b => 1 <= b <= 255) (fst e) /\ (length (fst e) <= 255)%nat) l -> keys_of_kind Strings (set_all l).
Proof.
  induction 1 as [|[k v] l [H1 H2] _ IH]; [constructor|]. constructor; [|exact IH]. intros u E. cbn in E. injection E as <-. split; assumption.
Qed.
(** Distinct entries of a tree are at most as many as the calls that made it. *)
Lemma entries_few l tree : vrun (set_all l) = Ok tree -> keys_of_kind Strings (set_all l) -> (length (entries tree) <= length l)%nat.
Proof.
  intros Hr Hk. destruct (C18_map (VOther 0) stored_bytes val_bytes Strings _ Hk) as (t & E & _ & I & N & _).
  assert (t = tree) by (unfold vrun in Hr; rewrite E in Hr; injection Hr; auto). subst t.
  rewrite <- (map_length fst (entries tree)), <- (map_length (fun e => UStr (fst e)) l). apply NoDup_incl_length; [exact N|].
  intros u Hu. apply in_map_iff in Hu as ([u' v] & E1 & Hu). cbn in E1. subst u'. apply I in Hu. destruct (bindings_from _ _ _ Hu) as (k & -> & Hk').
  apply in_map_iff. exists (k, v). auto.
Qed.
Lemma set_storable l : Forall (fun e : list Z * tval => storable_key (UStr (fst e)) /\ storable (snd e)) l -> (length l <= 1000)%nat ->
  exists tree, vrun (set_all l) = Ok tree /\ (forall w, storable (VTree w (entries tree))) /\ (forall k, entry k (entries tree) = bindings (set_all l) no_bindings (UStr k)) /\
    keys_of_kind Strings (set_all l) /\ Z.of_nat (length (entries tree)) <= 32767 /\ (forall u v, In (u, v) (entries tree) -> storable_key u /\ storable v).
Proof.
  intros F L. assert (Hk : keys_of_kind Strings (set_all l)).
  { apply good_keys. eapply Forall_impl; [|exact F]. intros e [(_ & A & B) _]. split; [exact B|exact A]. }
  destruct (C18_map (VOther 0) stored_bytes val_bytes Strings _ Hk) as (tree & Er & _ & I & _). exists tree. split; [exact Er|].
  assert (S : forall u v, In (u, v) (entries tree) -> storable_key u /\ storable v).
  { intros u v H. apply I in H. destruct (bindings_from _ _ _ H) as (k & -> & Hi). rewrite Forall_forall in F. exact (F _ Hi). }
  pose proof (entries_few l tree Er Hk). split.
  - intros w. econstructor; [exact Hk|exact Er|lia|exact S].
  - split; [apply entry_bindings; assumption|]. split; [exact Hk|]. split; [lia|exact S].
Qed.

(** *** Encoding *)
Definition fields (ty : Z) (u r i s a p : list Z) (ex ia nb : Z) (si e sie : list Z) : list (list Z * tval) :=
  [(k_type, VUshort ty); (k_uuid, VBin u); (k_realm, VStr r); (k_issuer, VStr i); (k_subject, VStr s); (k_audience, VStr a); (k_public, VBin p);
   (k_expires, VDouble (Some ex)); (k_issued, VDouble (Some ia)); (k_before, VDouble (Some nb)); (k_signature, VBin si); (k_extensions, VBin e); (k_ext_signature, VBin sie)].

Lemma encode_inv C t t' h : a_token t -> encode C t = Ok (t', h) ->
  exists r i s a, strncpy 255 r = realm t /\ strncpy 65 i = issuer t /\ strncpy 255 s = subject t /\ strncpy 255 a = audience t /\
    storable (VStr r) /\ storable (VStr i) /\ storable (VStr s) /\ storable (VStr a) /\
    h = set_all (fields (ttype t) (uuid t) r i s a (pk t) (expires_at t) (issued_at t) (not_before t) (signature t) (used t) (attributes_signature t')) /\
    (if scope t <=? 2 then update_attributes_signature C block_ops t = Ok t' else t' = t).
Proof.
  intros (_ & _ & _ & _ & Tr & Ti & Ts & Ta & _ & _ & _ & _ & (La & n & En & Hn)) E. unfold encode in E.
  destruct (text_of_ok 255 _ ltac:(lia) Tr) as (r & Er & Sr & Wr & _). destruct (text_of_ok 65 _ ltac:(lia) Ti) as (i & Ei & Si & Wi & _).
  destruct (text_of_ok 255 _ ltac:(lia) Ts) as (s & Es & Ss & Ws & _). destruct (text_of_ok 255 _ ltac:(lia) Ta) as (a & Ea & Sa & Wa & _).
  rewrite Er, Ei, Es, Ea in E. cbn [obind] in E. unfold attributes_part in E. unfold used. rewrite En in E |- *. cbn [snd] in *. rewrite La in E.
  assert (X : n <=? Z.of_nat (Z.to_nat 10240) = true) by lia. rewrite X in E. cbn [obind] in E. exists r, i, s, a. repeat (split; [assumption|]).
  unfold scope_private_available in E. destruct (scope t <=? 2) eqn:Sc.
  - destruct (update_attributes_signature C block_ops t) as [t1| |] eqn:U; cbn [obind] in E; try discriminate E.
    assert (E1 : t1 = t') by congruence. subst t1. split; [|reflexivity]. cbn [obind] in E. unfold set_all, fields. cbn [map fst snd]. congruence.
  - cbn [obind] in E. assert (E1 : t = t') by congruence. subst t'. split; [|reflexivity]. unfold set_all, fields. cbn [map fst snd]. congruence.
Qed.
Definition holds_token (l : list (ukey * tval)) (ty : Z) (u r i s a p : list Z) (ex ia nb : Z) (si e sie : list Z) : Prop :=
  Forall (fun f => entry (fst f) l = Some (snd f)) (fields ty u r i s a p ex ia nb si e sie).
Lemma fields_found ty u r i s a p ex ia nb si e sie tree :
  (forall k, entry k (entries tree) = bindings (set_all (fields ty u r i s a p ex ia nb si e sie)) no_bindings (UStr k)) ->
  holds_token (entries tree) ty u r i s a p ex ia nb si e sie.
Proof.
  intros H. unfold holds_token. unfold fields at 1. repeat (apply Forall_cons; [rewrite H, bindings_set; reflexivity|]). apply Forall_nil.
Qed.
Definition arrived (f : token) (ty : Z) (u r i s a p : list Z) (ex ia nb : Z) (si e sie : list Z) : token :=
  mkTok u (strncpy 255 r) (strncpy 65 i) (strncpy 255 s) (strncpy 255 a) ia nb ex (over e (attributes f)) (over sie (attributes_signature f)) p (sk f) si
    (state f) ty 3 false false false (issuer_ok f).
Lemma bin_exact n b : length b = n -> bin n (VBin b) = Ok b.
Proof. intros L. unfold bin. rewrite L, Nat.leb_refl. rewrite firstn_all2 by lia. reflexivity. Qed.
Ltac tok := cbn [set_scope set_flags set_attr set_sig put_before put_issued put_expires put_public put_audience put_subject put_issuer put_realm put_type put_uuid
  private_key_is_set attributes attributes_signature uuid realm issuer subject audience issued_at not_before expires_at pk sk signature state ttype scope sig_ok attr_ok issuer_ok].
Ltac must E B := unfold mandatory at 1; rewrite E; try rewrite B; cbn [obind to_str ush dbl bin_upto]; tok.
Ltac may E := unfold optional at 1; rewrite E; cbn [obind to_str ush dbl bin_upto]; tok.
Lemma decode_found P on_curve l f ty u r i s a p ex ia nb si e sie : holds_token l ty u r i s a p ex ia nb si e sie ->
  length u = 16%nat -> length p = 32%nat -> length si = 64%nat -> length sie = 64%nat -> (length e <= Z.to_nat 10240)%nat -> on_curve p = true ->
  0 <= ex -> 0 <= ia -> 0 <= nb -> private_key_is_set f = false ->
  decode P on_curve l f = Ok (true, arrived f ty u r i s a p ex ia nb si e sie).
Proof.
  intros H Lu Lp Ls Lsie Le Oc Hex Hia Hnb Pk. unfold holds_token, fields in H.
  repeat match goal with H : Forall _ (_ :: _) |- _ => let E := fresh "E" in inversion H as [|? ? E ?]; subst; clear H; cbn [fst snd] in E end.
  assert (X1 : ex <? 0 = false) by lia. assert (X2 : ia <? 0 = false) by lia. assert (X3 : nb <? 0 = false) by lia.
  destruct f as [f1 f2 f3 f4 f5 f6 f7 f8 f9 f10 f11 f12 f13 f14 f15 f16 f17 f18 f19 f20]. cbn [private_key_is_set] in Pk. subst f17.
  unfold decode. cbv zeta. tok.
  must E0 (bin_exact 16 u Lu). must E E. may E1. must E2 E2. must E3 E3. may E4. must E5 (bin_exact 32 p Lp).
  rewrite Oc. cbn [negb]. must E6 E6. rewrite X1. may E7. rewrite X2. may E8. rewrite X3. must E9 (bin_exact 64 si Ls).
  rewrite E10. cbn [bin_upto obind]. rewrite (firstn_all2 e) by exact Le. tok. must E11 E11.
  rewrite (firstn_all2 sie) by (rewrite Lsie; apply Nat.le_refl). unfold done. tok. reflexivity.
Qed.

(** *** The attributes *)
Lemma over_prefix n (a f : list Z) : (n <= length a)%nat -> length f = length a -> length (over (firstn n a) f) = length a /\ firstn n (over (firstn n a) f) = firstn n a.
Proof.
  intros L Lf. assert (Ln : length (firstn n a) = n) by (rewrite firstn_length; lia). unfold over. rewrite Ln. split.
  - rewrite app_length, Ln, skipn_length. lia.
  - rewrite firstn_app, Ln, Nat.sub_diag. cbn [firstn]. rewrite app_nil_r, firstn_firstn. f_equal. lia.
Qed.
Lemma firstn_less {X} (n m : nat) (a b : list X) : (m <= n)%nat -> firstn n a = firstn n b -> firstn m a = firstn m b.
Proof. intros L E. rewrite <- (Nat.min_l m n L), <- !firstn_firstn, E. reflexivity. Qed.
Lemma same_header a b : firstn 21 a = firstn 21 b -> read_header a = read_header b.
Proof. intros E. unfold read_header, overhead. rewrite E. reflexivity. Qed.
Lemma same_block a b n : np_get_data_size a = (np_data_ok, n) -> 21 <= n -> length a = length b -> firstn (Z.to_nat n) a = firstn (Z.to_nat n) b ->
  np_get_data_size b = (np_data_ok, n) /\ forall k, np_get_data b k = np_get_data a k.
Proof.
  intros E Hn L F. assert (H : read_header a = read_header b) by (apply same_header, (firstn_less (Z.to_nat n)); [lia|exact F]).
  assert (E' : exists h, read_header a = (np_data_ok, h) /\ h_used h = n).
  { unfold np_get_data_size in E. destruct (read_header a) as [[] h]; try discriminate E. exists h. split; [reflexivity|congruence]. }
  destruct E' as (h & Eh & Eu). split.
  - unfold np_get_data_size. rewrite <- H, Eh, Eu. reflexivity.
  - intros k. unfold np_get_data, search_object. rewrite <- H, Eh, <- L. cbn [snd]. rewrite Eu, F. reflexivity.
Qed.
Lemma used_block (a f : list Z) : intact a -> length f = Z.to_nat 10240 ->
  exists n, np_get_data_size a = (np_data_ok, n) /\ 21 <= n <= 10240 /\
  let e := firstn (Z.to_nat (snd (np_get_data_size a))) a in
  (length e <= Z.to_nat 10240)%nat /\ length (over e f) = Z.to_nat 10240 /\ np_get_data_size (over e f) = (np_data_ok, n) /\
  firstn (Z.to_nat n) (over e f) = firstn (Z.to_nat n) a /\ forall k, np_get_data (over e f) k = np_get_data a k.
Proof.
  intros (La & n & En & Hn) Lf. exists n. split; [exact En|]. split; [exact Hn|]. rewrite En. cbn [snd]. cbv zeta.
  destruct (over_prefix (Z.to_nat n) a f ltac:(rewrite La; lia) ltac:(congruence)) as [Lo Fo].
  destruct (same_block a (over (firstn (Z.to_nat n) a) f) n En ltac:(lia) ltac:(congruence) (eq_sym Fo)) as [H1 H2].
  split; [rewrite firstn_length; lia|]. split; [congruence|]. auto.
Qed.

Lemma update_sig C t t' : update_attributes_signature C block_ops t = Ok t' -> exists n, ad_size block_ops (attributes t) = Some n /\
  t' = set_attr t (attributes t) (sign C (sk t) (hash C (firstn (Z.to_nat n) (attributes t) ++ signature t))).
Proof.
  unfold update_attributes_signature. destruct (_ <? scope t); [discriminate|]. unfold attributes_hash.
  destruct (ad_size block_ops (attributes t)) as [n|]; [|discriminate]. cbn [obind]. intros E. exists n. split; [reflexivity|congruence].
Qed.

(** *** There and back *)
Definition at_receiver (f t' : token) : token :=
  mkTok (uuid t') (realm t') (issuer t') (subject t') (audience t') (issued_at t') (not_before t') (expires_at t') (over (used t') (attributes f))
    (attributes_signature t') (pk t') (sk f) (signature t') (state f) (ttype t') 3 false false false (issuer_ok f).
Lemma encode_keeps C t t' h : encode C t = Ok (t', h) -> (if scope t <=? 2 then update_attributes_signature C block_ops t = Ok t' else t' = t) ->
  t' = set_attr t (attributes t) (attributes_signature t').
Proof.
  intros _ H. destruct (scope t <=? 2).
  - destruct (update_sig _ _ _ H) as (n & _ & ->). reflexivity.
  - subst t'. destruct t. reflexivity.
Qed.
Lemma over_same_length (a b : list Z) : length a = length b -> over a b = a.
Proof. intros L. unfold over. rewrite L, skipn_all. apply app_nil_r. Qed.

Lemma there_and_back C P on_curve f t t' h : a_token t -> a_new_token f -> encode C t = Ok (t', h) -> on_curve (pk t) = true -> length (attributes_signature t') = 64%nat ->
  exists tree, vrun h = Ok tree /\ (forall w, storable (VTree w (entries tree))) /\ keys_of_kind Strings h /\ Z.of_nat (length (entries tree)) <= 32767 /\
    (forall u v, In (u, v) (entries tree) -> storable_key u /\ storable v) /\
    decode P on_curve (entries tree) f = Ok (true, at_receiver f t').
Proof.
  intros T (Np & Nl & Ns & _) E Oc Ls. pose proof (encode_inv _ _ _ _ T E) as (r & i & s & a & Er & Ei & Es & Ea & Wr & Wi & Ws & Wa & Eh & U).
  pose proof (encode_keeps _ _ _ _ E U) as Keep. destruct T as ([Lu _] & [Lp _] & [Lsi _] & _ & _ & _ & _ & _ & Hty & Hex & Hia & Hnb & Ha).
  destruct (used_block _ _ Ha Nl) as (n & En & Hn & Le & _). fold (used t) in Le.
  subst h. unfold a_time in *.
  assert (Sx : Forall (fun e : list Z * tval => storable_key (UStr (fst e)) /\ storable (snd e))
     (fields (ttype t) (uuid t) r i s a (pk t) (expires_at t) (issued_at t) (not_before t) (signature t) (used t) (attributes_signature t'))).
  { assert (K : forall k, forallb (fun b => (1 <=? b) && (b <=? 255)) k = true -> (length k <=? 255)%nat = true -> negb (length k =? 1)%nat = true -> storable_key (UStr k)).
    { intros k K1 K2 K3. split; [intros X; rewrite X in K3; discriminate K3|]. split; [apply Nat.leb_le; exact K2|]. apply Forall_forall. intros x Hx. rewrite forallb_forall in K1. specialize (K1 x Hx). lia. }
    unfold fields. repeat (apply Forall_cons; [cbn [fst snd]; split; [apply K; reflexivity|first [assumption | constructor; cbn [a_double]; lia]]|]). apply Forall_nil. }
  destruct (set_storable _ Sx ltac:(cbn; lia)) as (tree & Ev & W & Hf & Hk & Hl & Hs). exists tree. split; [exact Ev|]. split; [exact W|]. split; [exact Hk|]. split; [exact Hl|]. split; [exact Hs|].
  rewrite (decode_found P on_curve _ f _ _ _ _ _ _ _ _ _ _ _ _ _ (fields_found _ _ _ _ _ _ _ _ _ _ _ _ _ tree Hf)); try assumption; try lia.
  f_equal. f_equal. unfold arrived, at_receiver. rewrite Er, Ei, Es, Ea. rewrite (over_same_length (attributes_signature t')) by congruence.
  rewrite Keep. unfold used. reflexivity.
Qed.

Lemma same_at_receiver C f t t' h : a_token t -> a_new_token f -> encode C t = Ok (t', h) -> same_token t' (at_receiver f t') /\
  exists n, np_get_data_size (attributes (at_receiver f t')) = (np_data_ok, n) /\ 21 <= n <= 10240 /\ length (attributes (at_receiver f t')) = Z.to_nat 10240 /\
    firstn (Z.to_nat n) (attributes (at_receiver f t')) = used t /\ np_get_data_size (attributes t) = (np_data_ok, n).
Proof.
  intros T (Np & Nl & Ns & _) E. pose proof (encode_inv _ _ _ _ T E) as (_ & _ & _ & _ & _ & _ & _ & _ & _ & _ & _ & _ & _ & U).
  pose proof (encode_keeps _ _ _ _ E U) as Keep. assert (Ea : attributes t' = attributes t) by (rewrite Keep; reflexivity).
  destruct T as (_ & _ & _ & _ & _ & _ & _ & _ & _ & _ & _ & _ & Ha).
  destruct (used_block _ _ Ha Nl) as (n & En & Hn & Le & Lo & Eo & Fo & Go).
  assert (Eu : used t' = firstn (Z.to_nat (snd (np_get_data_size (attributes t)))) (attributes t)) by (unfold used; rewrite Ea; reflexivity).
  assert (EA : attributes (at_receiver f t') = over (firstn (Z.to_nat (snd (np_get_data_size (attributes t)))) (attributes t)) (attributes f)).
  { unfold at_receiver. cbn [attributes]. rewrite Eu. reflexivity. }
  split.
  - unfold same_token. rewrite EA, Ea. unfold used at 2. rewrite EA, Eo. cbn [snd]. rewrite Fo, Eu, En. cbn [snd].
    repeat (split; [reflexivity|]). intros k. rewrite En in Go. symmetry. apply Go.
  - exists n. rewrite EA. split; [exact Eo|]. split; [exact Hn|]. split; [exact Lo|]. split; [|exact En]. rewrite Fo. unfold used. rewrite En. reflexivity.
Qed.

(** *** The check of a token *)
Lemma is_valid_returns C now t e : size_readable t = Ok tt -> (flag_cmp (ttype t) type_message_intent = true -> counters_readable t = Ok tt) ->
  is_valid_in C now t e = Ok (is_valid C block_ops t e now).
Proof.
  intros S K. unfold is_valid_in. destruct (negb (flag_cmp (ttype t) e) || _); [reflexivity|].
  rewrite S. cbn [obind].
  assert (G : forall b, obind (Ok b) (fun signed : bool => if signed && flag_cmp (ttype t) type_message_intent then obind (counters_readable t) (fun _ => Ok (is_valid C block_ops t e now)) else Ok (is_valid C block_ops t e now)) = Ok (is_valid C block_ops t e now)).
  { intros [|]; cbn [obind andb]; [|reflexivity]. destruct (flag_cmp (ttype t) type_message_intent); [rewrite (K eq_refl)|]; reflexivity. }
  destruct (scope_private_available <? scope t); [|exact (G true)]. destruct (negb (sig_ok t) && _); [exact (G false)|]. destruct (attr_ok t); [exact (G true)|]. exact (G _).
Qed.
Lemma valid_content C A t e now : let t' := snd (is_valid C A t e now) in
  t' = mkTok (uuid t) (realm t) (issuer t) (subject t) (audience t) (issued_at t) (not_before t) (expires_at t) (attributes t) (attributes_signature t) (pk t) (sk t) (signature t) (state t') (ttype t) (scope t) (private_key_is_set t) (sig_ok t') (attr_ok t') (issuer_ok t').
Proof.
  cbv zeta. unfold is_valid, invalid.
  repeat (match goal with |- context [if ?x then _ else _] => match type of x with bool => destruct x end end; cbv beta iota zeta); reflexivity.
Qed.

Lemma arrives_checked C P on_curve now f t t' h l : a_token t -> a_new_token f -> encode C t = Ok (t', h) -> correct_scheme C -> signed_by_owner C t ->
  now <= expires_at t -> counters_ok t -> decode P on_curve l f = Ok (true, at_receiver f t') ->
  (forall e, Z.land (ttype t) e = e -> exists q, is_valid_in C now (at_receiver f t') e = Ok (true, q) /\ same_token t' q) /\
  exists r, read_from_tree C now P on_curve f l = (if (1 <? length (cstr 255 (subject t)))%nat then Ok (Some r) else Abort) /\ same_token t' r /\ scope r = 3 /\ state r = Z.lor (state f) 1 /\ forall e, Z.land (ttype t) e = e -> exists q, is_valid_in C now r e = Ok (true, q) /\ same_token t' q /\ state q = Z.lor (state f) 1.
Proof.
  intros T F E (Sc & _) (S1 & S2 & S3) Ex Co D.
  destruct (same_at_receiver _ _ _ _ _ T F E) as (Sm & n & En & Hn & Lo & Fo & En0).
  pose proof (encode_inv _ _ _ _ T E) as (_ & _ & _ & _ & _ & _ & _ & _ & _ & _ & _ & _ & _ & U).
  pose proof (encode_keeps _ _ _ _ E U) as Keep. rewrite (proj2 (Z.leb_le _ _) S1) in U. destruct (update_sig _ _ _ U) as (n0 & En1 & Et').
  assert (n0 = n) by (cbn [ad_size block_ops] in En1; rewrite En0 in En1; congruence). subst n0.
  assert (Esig : attributes_signature t' = sign C (sk t) (hash C (used t ++ signature t))).
  { rewrite Et'. cbn [attributes_signature set_attr]. do 3 f_equal. unfold used. rewrite En0. reflexivity. }
  set (r0 := at_receiver f t') in *.
  assert (Gd : forall k, np_get_data (attributes r0) k = np_get_data (attributes t) k).
  { intros k. destruct Sm as (_ & _ & _ & _ & _ & _ & _ & _ & _ & _ & _ & _ & _ & G). rewrite <- G. rewrite Keep. reflexivity. }
  assert (Vf : uuid r0 = uuid t /\ realm r0 = realm t /\ issuer r0 = issuer t /\ subject r0 = subject t /\ audience r0 = audience t /\ pk r0 = pk t /\
     expires_at r0 = expires_at t /\ issued_at r0 = issued_at t /\ not_before r0 = not_before t /\ signature r0 = signature t /\ ttype r0 = ttype t /\ scope r0 = 3 /\ sig_ok r0 = false /\ attr_ok r0 = false /\ attributes_signature r0 = attributes_signature t').
  { unfold r0, at_receiver. rewrite Keep. repeat split. }
  destruct Vf as (V1 & V2 & V3 & V4 & V5 & V6 & V7 & V8 & V9 & V10 & V11 & V12 & V13 & V14 & V15).
  assert (Sz : forall q, attributes q = attributes r0 -> size_readable q = Ok tt).
  { intros q Eq. unfold size_readable. rewrite Eq, En, Lo. replace (n <=? Z.of_nat (Z.to_nat 10240)) with true by (symmetry; apply Z.leb_le; lia). reflexivity. }
  assert (Cr : forall q, attributes q = attributes r0 -> ttype q = ttype t -> flag_cmp (ttype q) type_message_intent = true -> counters_readable q = Ok tt).
  { intros q Eq Eq2 H. unfold flag_cmp in H. rewrite Eq2 in H. apply Z.eqb_eq in H. destruct (Co H) as (mx & ms & M1 & M2 & _). unfold counters_readable. rewrite Eq, !Gd, M1, M2. reflexivity. }
  assert (Ac : forall q e, attributes q = attributes r0 -> uuid q = uuid r0 -> realm q = realm r0 -> issuer q = issuer r0 -> subject q = subject r0 -> audience q = audience r0 ->
     pk q = pk r0 -> expires_at q = expires_at r0 -> issued_at q = issued_at r0 -> not_before q = not_before r0 -> signature q = signature r0 -> ttype q = ttype r0 ->
     attributes_signature q = attributes_signature r0 -> scope q = 3 -> Z.land (ttype t) e = e -> acceptable C block_ops q e now).
  { intros q e Q1 Q2 Q3 Q4 Q5 Q6 Q7 Q8 Q9 Q10 Q11 Q12 Q13 Q14 He. split; [congruence|]. split; [rewrite Q8, V7; exact Ex|]. split.
    - intros _. split.
      + unfold self_signed. rewrite Q11, V10, Q7, V6, S3, S2. replace (hash_input q) with (hash_input t); [apply Sc|]. unfold hash_input. congruence.
      + exists n. cbn [ad_size block_ops]. rewrite Q1, En. split; [reflexivity|]. rewrite Fo, Q11, V10, Q13, V15, Q7, V6, Esig, S2. apply Sc.
    - intros H. assert (H' : Z.land (ttype t) 16 = 16) by (rewrite <- V11, <- Q12; exact H). destruct (Co H') as (mx & ms & M1 & M2 & Hm & Hm2). exists (DUint mx), (DUint ms).
      cbn [ad_get block_ops]. rewrite Q1, !Gd, M1, M2. cbn [seen raw_u32]. split; [reflexivity|]. split; [reflexivity|]. unfold u32. rewrite !Z.mod_small by lia. lia. }
  assert (Vr : forall q e, marks_true C block_ops q -> acceptable C block_ops q e now -> fst (is_valid C block_ops q e now) = true).
  { intros q e M A. destruct (is_valid C block_ops q e now) as [b q'] eqn:Eq. cbn [fst]. apply (is_valid_full C block_ops q e now b q' M Eq). exact A. }
  assert (M0 : marks_true C block_ops r0) by (split; intros; congruence).
  assert (A0 : acceptable C block_ops r0 0 now) by (apply Ac; auto; apply Z.land_0_r).
  assert (Same : forall q, same_content r0 q -> same_token t' q).
  { clear - Sm. intros q (C1 & C2 & C3 & C4 & C5 & C6 & C7 & C8 & C9 & C10 & C11 & C12 & C13 & C14 & C15 & C16). destruct Sm as (R1 & R2 & R3 & R4 & R5 & R6 & R7 & R8 & R9 & R10 & R11 & R12 & R13 & R14). unfold same_token. unfold used at 2. rewrite C1, C2, C3, C4, C5, C6, C7, C8, C9, C10, C11, C13, C14.
    fold (used r0). repeat (split; [assumption|]). assumption. }
  split.
  { intros e He. assert (Ae : acceptable C block_ops r0 e now) by (apply Ac; auto). rewrite (is_valid_returns C now r0 e (Sz r0 eq_refl) (Cr r0 eq_refl V11)).
    destruct (is_valid C block_ops r0 e now) as [b q'] eqn:Eq. destruct (is_valid_full C block_ops r0 e now b q' M0 Eq) as (Vi & Vc & _). assert (b = true) by (apply Vi; exact Ae). subst b.
    exists q'. split; [reflexivity|]. apply Same, Vc. }
  unfold read_from_tree. rewrite D. cbn [obind]. fold r0. rewrite (is_valid_returns C now r0 type_undefined (Sz r0 eq_refl) (Cr r0 eq_refl V11)). change type_undefined with 0.
  destruct (is_valid C block_ops r0 0 now) as [b q'] eqn:Eq. destruct (is_valid_full C block_ops r0 0 now b q' M0 Eq) as (Vi & Vc & M1 & St).
  assert (b = true) by (apply Vi; exact A0). subst b. cbn [obind].
  destruct Vc as (C1 & C2 & C3 & C4 & C5 & C6 & C7 & C8 & C9 & C10 & C11 & C12 & C13 & C14 & C15 & C16).
  rewrite C4, V4.
  exists q'. split; [reflexivity|]. split.
  - apply Same. unfold same_content. repeat (split; [assumption|]). assumption.
  - split; [congruence|]. split; [rewrite St; reflexivity|]. intros e He.
    assert (Aq : acceptable C block_ops q' e now) by (apply Ac; try assumption; congruence).
    rewrite (is_valid_returns C now q' e (Sz q' C9)); [|apply Cr; congruence].
    destruct (is_valid C block_ops q' e now) as [b q2] eqn:Eq2. destruct (is_valid_full C block_ops q' e now b q2 M1 Eq2) as (Vi2 & Vc2 & _ & St2). assert (b = true) by (apply Vi2; exact Aq). subst b.
    exists q2. split; [reflexivity|]. split; [|rewrite St2, St; cbn [state r0 at_receiver]; rewrite <- Z.lor_assoc; reflexivity]. apply Same.
    destruct Vc2 as (D1 & D2 & D3 & D4 & D5 & D6 & D7 & D8 & D9 & D10 & D11 & D12 & D13 & D14 & D15 & D16). repeat split; congruence.
Qed.

(** *** Well formed messages *)
Lemma readable_over a f : readable a -> length f = Z.to_nat 10240 -> readable (over (firstn (Z.to_nat (snd (np_get_data_size a))) a) f).
Proof.
  intros (La & (n & En & Hn) & Rk & Rp) Lf. destruct (used_block a f (conj La (ex_intro _ n (conj En Hn))) Lf) as (n' & En' & Hn' & H). cbv zeta in H.
  destruct H as (_ & Lo & Eo & _ & Go). split; [exact Lo|]. split; [exists n'; auto|]. split; intros; rewrite ?Go; auto.
  apply Rp. rewrite <- Go. assumption.
Qed.
Section Total.
  Variable P : puns.
  Variable on_curve : list Z -> bool.
  Variable l : list (ukey * tval).
  Definition long_subject (t : token) : Prop := (1 < length (cstr 255 (subject t)))%nat.
  Definition good_end (o : outcome (bool * token)) : Prop := exists ok r, o = Ok (ok, r) /\ (ok = true -> long_subject r) /\ readable (attributes r).
  Definition early (t : token) : Prop := readable (attributes t).
  Definition late (t : token) : Prop := readable (attributes t) /\ long_subject t.
  Lemma done_false t : early t -> good_end (done false t).
  Proof. intros Q. exists false. eexists. split; [reflexivity|]. split; [discriminate|]. exact Q. Qed.
  Lemma done_true t : late t -> good_end (done true t).
  Proof. intros [Q S]. exists true. eexists. split; [reflexivity|]. split; [intros _; exact S|]. exact Q. Qed.
  Lemma mandatory_total (Q : token -> Prop) k t g next : early t -> (forall v, entry k l = Some v -> exists t', g v = Ok t' /\ Q t') ->
    (forall t', Q t' -> good_end (next t')) -> good_end (mandatory l k t g next).
  Proof.
    intros E H N. unfold mandatory. destruct (entry k l) as [v|]; [|apply done_false, E]. destruct (H v eq_refl) as (t' & -> & Q'). cbn [obind]. apply N, Q'.
  Qed.
  Lemma optional_total (Q : token -> Prop) k t g next : Q t -> (forall v, entry k l = Some v -> exists t', g v = Ok t' /\ Q t') ->
    (forall t', Q t' -> good_end (next t')) -> good_end (optional l k t g next).
  Proof.
    intros E H N. unfold optional. destruct (entry k l) as [v|]; [|apply N, E]. destruct (H v eq_refl) as (t' & -> & Q'). cbn [obind]. apply N, Q'.
  Qed.
  Lemma late_early t : late t -> early t. Proof. intros [H _]. exact H. Qed.
  Lemma long_text s : (2 <= length s)%nat -> Forall (fun b => 1 <= b <= 255) s -> (1 < length (cstr 255 (strncpy 255 s)))%nat.
  Proof.
    intros L F. destruct s as [|x [|y s]]; cbn [length] in L; try lia. inversion F as [|? ? Fx F1]; subst. inversion F1 as [|? ? Fy F2]; subst.
    assert (H : forall n m (r e : list Z), (1 < length (until0 (firstn (Datatypes.S (Datatypes.S n)) (until0 (firstn (Datatypes.S (Datatypes.S m)) (x :: y :: r)) ++ e))))%nat).
    { assert (E1 : (x =? 0) = false) by lia. assert (E2 : (y =? 0) = false) by lia.
      intros n m r e. cbn [firstn until0]. rewrite E1, E2. cbn [firstn until0 app]. rewrite E1, E2. cbn [length]. lia. }
    apply (H 253%nat 253%nat).
  Qed.
  Lemma decode_total f : well_formed_token l -> readable (attributes f) -> good_end (decode P on_curve l f).
  Proof.
    intros (Wb & Wt & We & Ws) Rf. unfold decode. cbv zeta.
    assert (B : forall k n v, In (k, n) [(k_uuid, 16%nat); (k_public, 32%nat); (k_signature, 64%nat)] -> entry k l = Some v -> exists b, bin n v = Ok b).
    { intros k n v I E. destruct (Wb k n v I E) as (b & -> & L). exists b. apply bin_exact, L. }
    assert (T : forall k v, In k [k_realm; k_issuer; k_subject; k_audience] -> entry k l = Some v -> exists s, to_str (shown P) v = Ok s).
    { intros k v I E. destruct (Wt k v I E) as (s & -> & _). exists s. reflexivity. }
    assert (R0 : early (put_type (set_scope f 0) type_undefined)) by exact Rf. revert R0. generalize (put_type (set_scope f 0) type_undefined). intros t0 R0.
    apply (mandatory_total early); [exact R0| |intros t1 R1].
    { intros v E. destruct (B _ 16%nat v ltac:(cbn; auto) E) as (b & ->). cbn [obind]. eexists; split; [reflexivity|]. exact R0. }
    apply (mandatory_total early); [exact R1| |intros t2 R2].
    { intros v E. eexists; split; [reflexivity|]. exact R1. }
    apply (optional_total early); [exact R2| |intros t3 R3].
    { intros v E. destruct (T k_realm v ltac:(cbn; auto) E) as (b & ->). cbn [obind]. eexists; split; [reflexivity|]. exact R2. }
    apply (mandatory_total early); [exact R3| |intros t4 R4].
    { intros v E. destruct (T k_issuer v ltac:(cbn; auto) E) as (b & ->). cbn [obind]. eexists; split; [reflexivity|]. exact R3. }
    apply (mandatory_total late); [exact R4| |intros t5 R5].
    { intros v E. destruct (Wt k_subject v ltac:(cbn; auto) E) as (s & -> & Hs). cbn [to_str obind]. eexists; split; [reflexivity|]. split; [exact R4|].
      destruct (Hs eq_refl) as [Ls Fs]. exact (long_text s Ls Fs). }
    apply (optional_total late); [exact R5| |intros t6 R6].
    { intros v E. destruct (T k_audience v ltac:(cbn; auto) E) as (b & ->). cbn [obind]. eexists; split; [reflexivity|]. exact R5. }
    apply (mandatory_total late); [apply late_early, R6| |intros t7 R7].
    { intros v E. destruct (B _ 32%nat v ltac:(cbn; auto) E) as (b & ->). cbn [obind]. eexists; split; [reflexivity|]. exact R6. }
    destruct (negb (on_curve (pk t7))); [apply done_false, late_early, R7|].
    apply (mandatory_total late); [apply late_early, R7| |intros t8 R8].
    { intros v E. eexists; split; [reflexivity|]. exact R7. }
    apply (optional_total late); [exact R8| |intros t9 R9].
    { intros v E. eexists; split; [reflexivity|]. exact R8. }
    apply (optional_total late); [exact R9| |intros t10 R10].
    { intros v E. eexists; split; [reflexivity|]. exact R9. }
    apply (mandatory_total late); [apply late_early, R10| |intros t11 R11].
    { intros v E. destruct (B _ 64%nat v ltac:(cbn; auto) E) as (b & ->). cbn [obind]. eexists; split; [reflexivity|]. exact R10. }
    destruct (entry k_extensions l) as [v|] eqn:Ee; [|apply done_true, R11].
    destruct (We v eq_refl) as (a & Ra & ->). cbn [bin_upto obind].
    assert (Fe : firstn (Z.to_nat 10240) (firstn (Z.to_nat (snd (np_get_data_size a))) a) = firstn (Z.to_nat (snd (np_get_data_size a))) a).
    { apply firstn_all2. rewrite firstn_length. destruct Ra as (La & _). rewrite La. lia. }
    rewrite Fe.
    assert (R12 : late (set_attr t11 (over (firstn (Z.to_nat (snd (np_get_data_size a))) a) (attributes t11)) (attributes_signature t11))).
    { destruct R11 as [R11 S11]. split; [|exact S11]. cbn [attributes set_attr]. apply readable_over; [exact Ra|]. apply R11. }
    revert R12. generalize (set_attr t11 (over (firstn (Z.to_nat (snd (np_get_data_size a))) a) (attributes t11)) (attributes_signature t11)). intros t12 R12.
    apply (mandatory_total late); [apply late_early, R12| |apply done_true].
    intros w E. destruct (Ws w E) as (b & ->). cbn [bin_upto obind]. eexists; split; [reflexivity|]. exact R12.
  Qed.
End Total.

Lemma readable_checks t : readable (attributes t) -> size_readable t = Ok tt /\ counters_readable t = Ok tt.
Proof.
  intros (La & (n & En & Hn) & Rk & _). split.
  - unfold size_readable. rewrite En, La. replace (n <=? Z.of_nat (Z.to_nat 10240)) with true by (symmetry; apply Z.leb_le; lia). reflexivity.
  - unfold counters_readable. destruct (Rk k_max_threshold) as (v & [E | E]); rewrite E; cbn [returns obind]; [|reflexivity].
    destruct (Rk k_msg_threshold) as (w & [E2 | E2]); rewrite E2; reflexivity.
Qed.
Lemma readable_valid C now t e : readable (attributes t) -> exists b q, is_valid_in C now t e = Ok (b, q) /\ attributes q = attributes t /\ subject q = subject t.
Proof.
  intros R. destruct (readable_checks t R) as [R1 R2]. rewrite is_valid_returns by auto. pose proof (valid_content C block_ops t e now) as V. cbv zeta in V.
  destruct (is_valid C block_ops t e now) as [b q]. cbn [snd] in V. exists b, q. split; [reflexivity|]. rewrite V. split; reflexivity.
Qed.
Lemma readable_partner C t : readable (attributes t) -> exists x, partner_fp C t = Ok x.
Proof.
  intros (_ & _ & Rk & Rp). unfold partner_fp. destruct (Rk k_partner) as (v & [E | E]); rewrite E; cbn [returns obind]; [|eauto].
  destruct (Rp v E) as (b & -> & ->). cbn. eauto.
Qed.
Lemma token_total C now P on_curve f w l : well_formed_token l -> readable (attributes f) ->
  exists o, token_in C now P on_curve f (VTree w l) = Ok o /\ forall t, o = Some t -> readable (attributes t).
Proof.
  intros W Rf. unfold token_in. cbn [tree_of obind]. unfold read_from_tree. destruct (decode_total P on_curve l f W Rf) as (ok & r & -> & Hs & Rr). cbn [obind].
  destruct ok; [|exists None; split; [reflexivity|discriminate]]. destruct (readable_valid C now r type_undefined Rr) as (b & q & -> & Ea & Es). cbn [obind].
  destruct b; [|exists None; split; [reflexivity|discriminate]]. specialize (Hs eq_refl). unfold long_subject in Hs. rewrite <- Es in Hs. rewrite (proj2 (Nat.ltb_lt _ _) Hs).
  exists (Some q). split; [reflexivity|]. intros t [= <-]. rewrite Ea. exact Rr.
Qed.

(** *** What gets through is signed *)
Section Unmarked.
  Variable P : puns.
  Variable on_curve : list Z -> bool.
  Variable l : list (ukey * tval).
  Definition unmarked (t : token) : Prop := private_key_is_set t = false /\ sig_ok t = false /\ attr_ok t = false.
  Definition unmarked_end (o : outcome (bool * token)) : Prop := forall ok r, o = Ok (ok, r) -> unmarked r /\ scope r = 3.
  Lemma done_unmarked ok t : unmarked t -> unmarked_end (done ok t).
  Proof. intros U ok' r [= _ <-]. split; [exact U|]. destruct U as (U & _). cbn [scope set_scope]. rewrite U. reflexivity. Qed.
  Lemma mandatory_unmarked k t g next : unmarked t -> (forall v t', g v = Ok t' -> unmarked t') -> (forall t', unmarked t' -> unmarked_end (next t')) ->
    unmarked_end (mandatory l k t g next).
  Proof.
    intros U H N. unfold mandatory. destruct (entry k l) as [v|]; [|apply done_unmarked, U]. specialize (H v). destruct (g v) as [t'| |]; [|intros ok r [=]|intros ok r [=]]. apply N, H. reflexivity.
  Qed.
  Lemma optional_unmarked k t g next : unmarked t -> (forall v t', g v = Ok t' -> unmarked t') -> (forall t', unmarked t' -> unmarked_end (next t')) ->
    unmarked_end (optional l k t g next).
  Proof.
    intros U H N. unfold optional. destruct (entry k l) as [v|]; [|apply N, U]. specialize (H v). destruct (g v) as [t'| |]; [|intros ok r [=]|intros ok r [=]]. apply N, H. reflexivity.
  Qed.
  Lemma got {X Y} (o : outcome X) (g : X -> Y) y : obind o (fun b => Ok (g b)) = Ok y -> exists b, y = g b.
  Proof. destruct o; cbn [obind]; intros E; try discriminate E. exists a. congruence. Qed.
  Lemma decode_unmarked f : unmarked f -> unmarked_end (decode P on_curve l f).
  Proof.
    intros U0. unfold decode. cbv zeta. assert (U : unmarked (put_type (set_scope f 0) type_undefined)) by exact U0. clear U0.
    revert U. generalize (put_type (set_scope f 0) type_undefined). intros t0 U0.
    apply mandatory_unmarked; [exact U0|intros v t' E; apply got in E as [b ->]; exact U0|clear t0 U0; intros t1 U1].
    apply mandatory_unmarked; [exact U1|intros v t' [= <-]; exact U1|clear t1 U1; intros t2 U2].
    apply optional_unmarked; [exact U2|intros v t' E; apply got in E as [b ->]; exact U2|clear t2 U2; intros t3 U3].
    apply mandatory_unmarked; [exact U3|intros v t' E; apply got in E as [b ->]; exact U3|clear t3 U3; intros t4 U4].
    apply mandatory_unmarked; [exact U4|intros v t' E; apply got in E as [b ->]; exact U4|clear t4 U4; intros t5 U5].
    apply optional_unmarked; [exact U5|intros v t' E; apply got in E as [b ->]; exact U5|clear t5 U5; intros t6 U6].
    apply mandatory_unmarked; [exact U6|intros v t' E; apply got in E as [b ->]; exact U6|clear t6 U6; intros t7 U7].
    destruct (negb _); [apply done_unmarked, U7|].
    apply mandatory_unmarked; [exact U7|intros v t' [= <-]; exact U7|clear t7 U7; intros t8 U8].
    apply optional_unmarked; [exact U8|intros v t' [= <-]; exact U8|clear t8 U8; intros t9 U9].
    apply optional_unmarked; [exact U9|intros v t' [= <-]; exact U9|clear t9 U9; intros t10 U10].
    apply mandatory_unmarked; [exact U10|intros v t' E; apply got in E as [b ->]|clear t10 U10; intros t11 U11].
    { destruct U10 as (U1 & U2 & U3). split; [exact U1|]. split; [reflexivity|exact U3]. }
    destruct (entry k_extensions l) as [v|]; [|apply done_unmarked, U11]. destruct (bin_upto _ v) as [e| |]; [|intros ? ? [=]|intros ? ? [=]]. cbn [obind].
    assert (U : unmarked (set_attr t11 (over e (attributes t11)) (attributes_signature t11))) by exact U11. revert U.
    generalize (set_attr t11 (over e (attributes t11)) (attributes_signature t11)). intros t12 U12.
    apply mandatory_unmarked; [exact U12|intros w t' E; apply got in E as [b ->]|clear; intros t13 U13; apply done_unmarked, U13].
    destruct U12 as (U1 & U2 & U3). split; [exact U1|]. split; [exact U2|reflexivity].
  Qed.
End Unmarked.

Lemma is_valid_in_answer C now t e b q : is_valid_in C now t e = Ok (b, q) -> is_valid C block_ops t e now = (b, q).
Proof.
  unfold is_valid_in. destruct (_ || _); [intros H; congruence|].
  match goal with |- obind ?o _ = _ -> _ => destruct o as [sg| |]; cbn [obind]; try discriminate end.
  destruct (sg && _); [|intros H; congruence]. destruct (counters_readable t); cbn [obind]; try discriminate. intros H; congruence.
Qed.
Definition proven (C : crypto) (now : Z) (t : token) : Prop := marks_true C block_ops t /\ self_signed C t /\ attributes_signed C block_ops t /\ now <= expires_at t /\ scope t = 3.
Lemma checked_proven C now t e q : marks_true C block_ops t -> scope t = 3 -> is_valid_in C now t e = Ok (true, q) -> proven C now q /\ same_content t q /\ Z.land (ttype t) e = e.
Proof.
  intros M S E. apply is_valid_in_answer in E. destruct (is_valid_full C block_ops t e now true q M E) as (Vi & Vc & M1 & _). destruct (proj1 Vi eq_refl) as (A1 & A2 & A3 & _).
  specialize (A3 ltac:(lia)). destruct A3 as [A3 A4]. pose proof Vc as Vc'. destruct Vc as (C1 & C2 & C3 & C4 & C5 & C6 & C7 & C8 & C9 & C10 & C11 & C12 & C13 & C14 & C15 & C16).
  split; [|split; [exact Vc'|exact A1]]. split; [exact M1|]. split; [|split; [|split; [lia|lia]]].
  - revert A3. unfold self_signed, hash_input. rewrite C1, C2, C3, C4, C5, C6, C7, C8, C11, C13. auto.
  - revert A4. unfold attributes_signed. rewrite C9, C10, C11, C13. auto.
Qed.
Lemma read_proven C now P on_curve f l t : unmarked f -> read_from_tree C now P on_curve f l = Ok (Some t) -> proven C now t.
Proof.
  intros U. unfold read_from_tree. pose proof (decode_unmarked P on_curve l f U) as D. destruct (decode P on_curve l f) as [[ok r]| |]; cbn [obind]; try discriminate.
  destruct (D ok r eq_refl) as [(_ & U1 & U2) Sc]. destruct ok; [|discriminate]. destruct (is_valid_in C now r type_undefined) as [[ok q]| |] eqn:Ev; cbn [obind]; try discriminate.
  destruct ok; [|discriminate]. destruct (1 <? _)%nat; [|discriminate]. intros [= <-]. apply (checked_proven C now r type_undefined q); auto. split; congruence.
Qed.
Lemma token_proven C now P on_curve f v t : unmarked f -> token_in C now P on_curve f v = Ok (Some t) -> proven C now t.
Proof. intros U. unfold token_in. destruct (tree_of v); cbn [obind]; try discriminate. apply read_proven, U. Qed.

(** *** Ids in texts *)
Definition digit (c : Z) : Prop := 48 <= c <= 57 \/ 97 <= c <= 102 \/ 65 <= c <= 70.
Lemma hexval_digit c : digit c -> exists x, hexval c = Some x /\ 0 <= x <= 15.
Proof.
  unfold digit, hexval. intros D. destruct ((48 <=? c) && (c <=? 57)) eqn:E1; [eexists; split; [reflexivity|lia]|].
  destruct ((97 <=? c) && (c <=? 102)) eqn:E2; [eexists; split; [reflexivity|lia]|]. destruct ((65 <=? c) && (c <=? 70)) eqn:E3; [eexists; split; [reflexivity|lia]|lia].
Qed.
Lemma digit_hexval c x : hexval c = Some x -> digit c.
Proof.
  unfold digit, hexval. destruct ((48 <=? c) && (c <=? 57)) eqn:E1; [lia|]. destruct ((97 <=? c) && (c <=? 102)) eqn:E2; [lia|]. destruct ((65 <=? c) && (c <=? 70)) eqn:E3; [lia|discriminate].
Qed.
Lemma hex2bin_some n : forall l, length l = (2 * n)%nat -> Forall digit l -> exists r, hex2bin l = Some r /\ length r = n /\ Forall (fun b => 0 <= b < 256) r.
Proof.
  induction n as [|n IH]; intros l L F; [destruct l; [|discriminate L]; exists []; repeat constructor|].
  destruct l as [|a [|b l]]; cbn [length] in L; try lia. inversion F as [|? ? Da F']; subst. inversion F' as [|? ? Db F'']; subst.
  destruct (IH l ltac:(lia) F'') as (r & E & Lr & Fr). destruct (hexval_digit a Da) as (x & Ex & Hx). destruct (hexval_digit b Db) as (y & Ey & Hy).
  exists (16 * x + y :: r). cbn [hex2bin]. rewrite Ex, Ey, E. split; [reflexivity|]. split; [cbn; lia|]. constructor; [lia|exact Fr].
Qed.
Lemma hex2bin_digits n : forall l r, (length l <= n)%nat -> hex2bin l = Some r -> Forall digit l.
Proof.
  induction n as [|n IH]; intros l r L E; [destruct l; [constructor|cbn in L; lia]|].
  destruct l as [|a [|b l]]; [constructor|discriminate E|]. cbn [hex2bin] in E. destruct (hexval a) eqn:Ea; [|discriminate]. destruct (hexval b) eqn:Eb; [|discriminate].
  destruct (hex2bin l) eqn:El; [|discriminate]. constructor; [eapply digit_hexval; eauto|]. constructor; [eapply digit_hexval; eauto|]. eapply (IH l); [cbn in L; lia|exact El].
Qed.
Lemma until0_digits l : Forall digit l -> until0 l = l.
Proof. induction 1 as [|c l D F IH]; [reflexivity|]. cbn [until0]. unfold digit in D. destruct (Z.eqb_spec c 0); [lia|]. rewrite IH. reflexivity. Qed.
Lemma str_id_text s : id_text s -> str_id s = Ok (id_of_str s).
Proof.
  intros [L F]. change (Forall digit (firstn 64 s)) in F. unfold str_id. replace (length s <? 64)%nat with false by (symmetry; apply Nat.ltb_ge; exact L).
  assert (L64 : length (firstn 64 s) = 64%nat) by (rewrite firstn_length; lia).
  destruct (hex2bin_some 32 (firstn 64 s) L64 F) as (r & E & Lr & Fr). rewrite E. f_equal. unfold id_of_str, cstr. rewrite until0_digits by exact F.
  unfold np_dhkey_create_from_hash. rewrite firstn_firstn. change (Nat.min 64 64) with 64%nat. rewrite L64, Nat.eqb_refl. cbn [negb].
  replace (forallb _ (firstn 64 s)) with true; [|symmetry; apply forallb_forall; intros c Hc; rewrite Forall_forall in F; destruct (hexval_digit c (F c Hc)) as (x & -> & _); reflexivity].
  cbn [negb]. rewrite E. symmetry. apply (key_bytes_bytes_key r 8); [exact Lr|exact Fr].
Qed.
Lemma str_id_inv s d : str_id s = Ok d -> id_text s /\ id_of_str s = d.
Proof.
  unfold str_id at 1. destruct (length s <? 64)%nat eqn:L; [discriminate|]. destruct (hex2bin (firstn 64 s)) as [r|] eqn:E; [|discriminate]. intros [= <-].
  assert (I : id_text s). { split; [apply Nat.ltb_ge in L; exact L|]. apply (hex2bin_digits 64 _ r); [rewrite firstn_length; lia|exact E]. }
  split; [exact I|]. pose proof (str_id_text s I) as G. unfold str_id in G. rewrite L, E in G. congruence.
Qed.
Lemma no_id_text s : (64 <= length s)%nat -> ~ id_text s -> str_id s = Abort.
Proof.
  intros L N. destruct (str_id s) as [d| |] eqn:E; [|reflexivity|]; [exfalso; apply N; apply (str_id_inv s d E)|].
  unfold str_id in E. replace (length s <? 64)%nat with false in E by (symmetry; apply Nat.ltb_ge; exact L). destruct (hex2bin (firstn 64 s)); discriminate E.
Qed.
Lemma until0_prefix n l : Forall digit (firstn n l) -> firstn n (until0 l) = firstn n l.
Proof.
  revert l. induction n as [|n IH]; intros l F; [reflexivity|]. destruct l as [|c l]; [reflexivity|]. cbn [firstn] in F. inversion F as [|? ? D F']; subst.
  cbn [until0]. destruct (Z.eqb_spec c 0); [unfold digit in D; lia|]. cbn [firstn]. rewrite IH by exact F'. reflexivity.
Qed.
Lemma strncpy_64 n s : (64 <= n)%nat -> id_text s -> firstn 64 (strncpy n s) = firstn 64 s.
Proof.
  intros H [L F]. change (Forall digit (firstn 64 s)) in F. unfold strncpy, cstr. rewrite firstn_app.
  assert (P : firstn 64 (until0 (firstn n s)) = firstn 64 s).
  { rewrite until0_prefix; rewrite firstn_firstn, Nat.min_l by lia; [reflexivity|exact F]. }
  rewrite P. assert (Ll : (64 <= length (until0 (firstn n s)))%nat).
  { assert (Q : length (firstn 64 (until0 (firstn n s))) = 64%nat) by (rewrite P, firstn_length; lia). rewrite firstn_length in Q. lia. }
  replace (64 - length (until0 (firstn n s)))%nat with 0%nat by lia. apply app_nil_r.
Qed.
Lemma strncpy_full n s : (n <= length (strncpy n s))%nat.
Proof. unfold strncpy. rewrite app_length, repeat_length. lia. Qed.
Lemma strncpy_id n s : (64 <= n)%nat -> id_text s -> id_text (strncpy n s).
Proof. intros H I. split; [pose proof (strncpy_full n s); lia|]. rewrite strncpy_64 by auto. apply I. Qed.

(** what a token is read as has the texts that were sent *)
Section Ends.
  Context {X : Type} (p : token -> X) (x : X).
  Variable l : list (ukey * tval).
  Definition ends_with (o : outcome (bool * token)) : Prop := forall ok r, o = Ok (ok, r) -> p r = x.
  Hypothesis scoped : forall t n, p (set_scope t n) = p t.
  Lemma done_ends ok t : p t = x -> ends_with (done ok t).
  Proof. intros H ok' r [= _ <-]. rewrite scoped. exact H. Qed.
  Lemma mandatory_ends k t g next : p t = x -> (forall v t', g v = Ok t' -> p t' = x) -> (forall t', p t' = x -> ends_with (next t')) -> ends_with (mandatory l k t g next).
  Proof. intros H G N. unfold mandatory. destruct (entry k l) as [v|]; [|apply done_ends, H]. specialize (G v). destruct (g v); [|intros ? ? [=]|intros ? ? [=]]. apply N, G. reflexivity. Qed.
  Lemma optional_ends k t g next : p t = x -> (forall v t', g v = Ok t' -> p t' = x) -> (forall t', p t' = x -> ends_with (next t')) -> ends_with (optional l k t g next).
  Proof. intros H G N. unfold optional. destruct (entry k l) as [v|]; [|apply N, H]. specialize (G v). destruct (g v); [|intros ? ? [=]|intros ? ? [=]]. apply N, G. reflexivity. Qed.
  Lemma mandatory_case k t g next : entry k l <> None -> (forall v t', entry k l = Some v -> g v = Ok t' -> ends_with (next t')) -> ends_with (mandatory l k t g next).
  Proof. intros H G. unfold mandatory. destruct (entry k l) as [v|]; [|contradiction]. specialize (G v). destruct (g v); [|intros ? ? [=]|intros ? ? [=]]. apply G; reflexivity. Qed.
  Lemma optional_case k t g next : (forall t', ends_with (next t')) -> ends_with (optional l k t g next).
  Proof. intros H. unfold optional. destruct (entry k l) as [v|]; [|apply H]. destruct (g v); [apply H|intros ? ? [=]|intros ? ? [=]]. Qed.
End Ends.
Lemma decode_issuer P on_curve l f s ok r : entry k_uuid l <> None -> entry k_type l <> None -> entry k_issuer l = Some (VStr s) ->
  decode P on_curve l f = Ok (ok, r) -> issuer r = strncpy 65 s.
Proof.
  intros Hu Ht Hi. revert ok r. fold (ends_with issuer (strncpy 65 s) (decode P on_curve l f)). assert (Sc : forall t n, issuer (set_scope t n) = issuer t) by reflexivity.
  unfold decode. cbv zeta. generalize (put_type (set_scope f 0) type_undefined). intros t0.
  apply mandatory_case; [exact Hu|intros v0 t1 _ _]. apply mandatory_case; [exact Ht|intros v1 t2 _ _]. apply optional_case. intros t3.
  apply mandatory_case; [congruence|]. intros v2 t4 Ev E4. assert (v2 = VStr s) by congruence. subst v2. cbn [to_str obind] in E4. assert (I4 : issuer t4 = strncpy 65 s) by (injection E4 as <-; reflexivity). clear E4 Ev t0 t1 t2 t3 v0 v1.
  apply mandatory_ends; [exact Sc|exact I4|intros v t' E; apply got in E as [b ->]; exact I4|clear t4 I4; intros t5 U5].
  apply optional_ends; [exact U5|intros v t' E; apply got in E as [b ->]; exact U5|clear t5 U5; intros t6 U6].
  apply mandatory_ends; [exact Sc|exact U6|intros v t' E; apply got in E as [b ->]; exact U6|clear t6 U6; intros t7 U7].
  destruct (negb _); [apply done_ends; [exact Sc|exact U7]|].
  apply mandatory_ends; [exact Sc|exact U7|intros v t' [= <-]; exact U7|clear t7 U7; intros t8 U8].
  apply optional_ends; [exact U8|intros v t' [= <-]; exact U8|clear t8 U8; intros t9 U9].
  apply optional_ends; [exact U9|intros v t' [= <-]; exact U9|clear t9 U9; intros t10 U10].
  apply mandatory_ends; [exact Sc|exact U10|intros v t' E; apply got in E as [b ->]; exact U10|clear t10 U10; intros t11 U11].
  destruct (entry k_extensions l) as [v|]; [|apply done_ends; [exact Sc|exact U11]]. destruct (bin_upto _ v) as [e| |]; [|intros ? ? [=]|intros ? ? [=]]. cbn [obind].
  apply mandatory_ends; [exact Sc|exact U11|intros w t' E; apply got in E as [b ->]; exact U11|clear - Sc; intros t13 U13; apply done_ends; [exact Sc|exact U13]].
Qed.
(** the subject, of a token that could be read *)
Section Subject.
  Variables (l : list (ukey * tval)) (s : list Z).
  Definition subject_end (o : outcome (bool * token)) : Prop := forall r, o = Ok (true, r) -> subject r = strncpy 255 s.
  Lemma refused_subject t : subject_end (done false t).
  Proof. intros r [=]. Qed.
  Lemma mandatory_before k t g next : (forall v t', entry k l = Some v -> g v = Ok t' -> subject_end (next t')) -> subject_end (mandatory l k t g next).
  Proof. intros G. unfold mandatory. destruct (entry k l) as [v|]; [|apply refused_subject]. specialize (G v). destruct (g v); [|intros ? [=]|intros ? [=]]. apply G; reflexivity. Qed.
  Lemma optional_before k t g next : (forall t', subject_end (next t')) -> subject_end (optional l k t g next).
  Proof. intros H. unfold optional. destruct (entry k l) as [v|]; [|apply H]. destruct (g v); [apply H|intros ? [=]|intros ? [=]]. Qed.
  Lemma ends_subject o : ends_with subject (strncpy 255 s) o -> subject_end o.
  Proof. intros H r E. exact (H true r E). Qed.
End Subject.
Lemma decode_subject P on_curve l f s r : entry k_subject l = Some (VStr s) -> decode P on_curve l f = Ok (true, r) -> subject r = strncpy 255 s.
Proof.
  intros Hi. revert r. fold (subject_end s (decode P on_curve l f)). assert (Sc : forall t n, subject (set_scope t n) = subject t) by reflexivity.
  unfold decode. cbv zeta. generalize (put_type (set_scope f 0) type_undefined). intros t0.
  apply mandatory_before; intros v0 t1 _ _. apply mandatory_before; intros v1 t2 _ _. apply optional_before. intros t3. apply mandatory_before; intros v2 t3' _ _.
  apply mandatory_before. intros v3 t4 Ev E4. assert (v3 = VStr s) by congruence. subst v3. cbn [to_str obind] in E4. assert (I4 : subject t4 = strncpy 255 s) by (injection E4 as <-; reflexivity).
  clear E4 Ev t0 t1 t2 t3 t3' v0 v1 v2. apply ends_subject.
  apply optional_ends; [exact I4|intros v t' E; apply got in E as [b ->]; exact I4|clear t4 I4; intros t6 U6].
  apply mandatory_ends; [exact Sc|exact U6|intros v t' E; apply got in E as [b ->]; exact U6|clear t6 U6; intros t7 U7].
  destruct (negb _); [apply done_ends; [exact Sc|exact U7]|].
  apply mandatory_ends; [exact Sc|exact U7|intros v t' [= <-]; exact U7|clear t7 U7; intros t8 U8].
  apply optional_ends; [exact U8|intros v t' [= <-]; exact U8|clear t8 U8; intros t9 U9].
  apply optional_ends; [exact U9|intros v t' [= <-]; exact U9|clear t9 U9; intros t10 U10].
  apply mandatory_ends; [exact Sc|exact U10|intros v t' E; apply got in E as [b ->]; exact U10|clear t10 U10; intros t11 U11].
  destruct (entry k_extensions l) as [v|]; [|apply done_ends; [exact Sc|exact U11]]. destruct (bin_upto _ v) as [e| |]; [|intros ? ? [=]|intros ? ? [=]]. cbn [obind].
  apply mandatory_ends; [exact Sc|exact U11|intros w t' E; apply got in E as [b ->]; exact U11|clear - Sc; intros t13 U13; apply done_ends; [exact Sc|exact U13]].
Qed.
Lemma valid_texts C now t e b q : is_valid_in C now t e = Ok (b, q) -> issuer q = issuer t /\ subject q = subject t.
Proof. intros E. apply is_valid_in_answer in E. pose proof (valid_content C block_ops t e now) as V. cbv zeta in V. rewrite E in V. cbn [snd] in V. rewrite V. split; reflexivity. Qed.
Lemma token_texts C now P on_curve f w l t : token_in C now P on_curve f (VTree w l) = Ok (Some t) ->
  (forall s, entry k_subject l = Some (VStr s) -> subject t = strncpy 255 s) /\
  (forall s, entry k_uuid l <> None -> entry k_type l <> None -> entry k_issuer l = Some (VStr s) -> issuer t = strncpy 65 s).
Proof.
  unfold token_in. cbn [tree_of obind]. unfold read_from_tree. destruct (decode P on_curve l f) as [[ok r]| |] eqn:D; cbn [obind]; try discriminate. destruct ok; [|discriminate].
  destruct (is_valid_in C now r type_undefined) as [[b q]| |] eqn:Ev; cbn [obind]; try discriminate. destruct b; [|discriminate]. destruct (1 <? _)%nat; [|discriminate]. intros [= <-].
  destruct (valid_texts _ _ _ _ _ _ Ev) as [-> ->]. split; intros; [eapply decode_subject; eauto|eapply decode_issuer; eauto].
Qed.
