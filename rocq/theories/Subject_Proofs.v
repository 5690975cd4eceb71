(** Proofs about the making of subjects. *)
From Coq Require Import String Ascii.
From Verif Require Import Base Dhkey_Model Subject_Model Subject_Spec.
From Coq Require Import List.
Open Scope Z_scope.
Open Scope list_scope.

(** ** Exclusive or of keys *)
Lemma map2_length f : forall a b, length a = length b -> length (map2 f a b) = length a.
Proof. induction a as [|x a IH]; destruct b as [|y b]; cbn; intros E; try discriminate; [reflexivity|]. rewrite IH by lia. reflexivity. Qed.
Lemma xor_comm : forall a b, np_dhkey_xor a b = np_dhkey_xor b a.
Proof. unfold np_dhkey_xor. induction a as [|x a IH]; destruct b as [|y b]; cbn; try reflexivity. rewrite Z.lxor_comm, IH. reflexivity. Qed.
Lemma xor_assoc : forall a b c, np_dhkey_xor a (np_dhkey_xor b c) = np_dhkey_xor (np_dhkey_xor a b) c.
Proof. unfold np_dhkey_xor. induction a as [|x a IH]; destruct b as [|y b]; destruct c as [|z c]; cbn; try reflexivity. rewrite Z.lxor_assoc, IH. reflexivity. Qed.
Lemma xor_zero n : forall a, length a = n -> np_dhkey_xor a (repeat 0 n) = a.
Proof. unfold np_dhkey_xor. induction n as [|n IH]; destruct a as [|x a]; cbn; intros E; try discriminate; [reflexivity|]. rewrite Z.lxor_0_r, IH by lia. reflexivity. Qed.
Lemma xor_self : forall a, np_dhkey_xor a a = repeat 0 (length a).
Proof. unfold np_dhkey_xor. induction a as [|x a IH]; cbn; [reflexivity|]. rewrite Z.lxor_nilpotent, IH. reflexivity. Qed.
Lemma xor_length a b : length a = length b -> length (np_dhkey_xor a b) = length a. Proof. apply map2_length. Qed.
Lemma xor_twice a b : length a = length b -> np_dhkey_xor a (np_dhkey_xor a b) = b.
Proof. intros E. rewrite xor_assoc, xor_self, xor_comm. apply xor_zero. lia. Qed.

(** ** Texts *)
Lemma generate H id t : np_generate_subject H id t (Z.of_nat (length t)) = Ok (0, np_dhkey_xor (H t) id).
Proof. unfold np_generate_subject. rewrite Z.ltb_irrefl. rewrite Nat2Z.id, firstn_all. reflexivity. Qed.
Lemma texts_xor H : forall ts id, after_texts H id ts = Ok (fold_right (fun t k => np_dhkey_xor (H t) k) id ts).
Proof.
  assert (X : forall ts id t, fold_right (fun t k => np_dhkey_xor (H t) k) (np_dhkey_xor (H t) id) ts = np_dhkey_xor (H t) (fold_right (fun t k => np_dhkey_xor (H t) k) id ts)).
  { induction ts as [|u ts IH]; intros id t; cbn [fold_right]; [reflexivity|]. rewrite IH, !xor_assoc, (xor_comm (H u)). reflexivity. }
  induction ts as [|t ts IH]; intros id; cbn [after_texts fold_right]; [reflexivity|]. rewrite generate. cbn [obind]. rewrite IH, X. reflexivity.
Qed.
Lemma texts_permutation (H : list Z -> key) ts ts' : Permutation ts ts' -> forall id, fold_right (fun t k => np_dhkey_xor (H t) k) id ts = fold_right (fun t k => np_dhkey_xor (H t) k) id ts'.
Proof.
  induction 1; intros id; cbn [fold_right]; [reflexivity|congruence| |congruence]. rewrite !xor_assoc, (xor_comm (H y)). reflexivity.
Qed.

(** ** The table of names *)
Section Table.
  Variable H : list Z -> key.
  Hypothesis HH : hashes H.
  (** the first [i] entries are made *)
  Definition filled (i : nat) : list key := map H (firstn i known_subjects) ++ repeat zero_key (16 - i).
  Lemma known_16 : length known_subjects = 16%nat. Proof. reflexivity. Qed.
  Lemma fill_step i : (i < 16)%nat -> upd (filled i) i (np_dhkey_xor (H (nth i known_subjects [])) (nth i (filled i) zero_key)) = filled (S i).
  Proof.
    intros Hi. unfold filled. assert (L : length (map H (firstn i known_subjects)) = i) by (rewrite map_length, firstn_length, known_16; lia).
    rewrite app_nth2 by lia. rewrite L, Nat.sub_diag. replace (16 - i)%nat with (S (16 - S i)) by lia. cbn [repeat nth].
    assert (X : forall (l : list key) x y r, length l = i -> upd (l ++ x :: r) i y = l ++ y :: r).
    { clear. intros l x y r <-. induction l as [|a l IH]; cbn; [reflexivity|]. rewrite IH. reflexivity. }
    rewrite X by exact L. unfold zero_key. rewrite xor_zero by apply HH.
    assert (F : firstn (S i) known_subjects = firstn i known_subjects ++ [nth i known_subjects []]).
    { clear X L. assert (Hl : (i < length known_subjects)%nat) by (rewrite known_16; lia). revert i Hi Hl. generalize known_subjects. induction l as [|a l IH]; intros i Hi Hl; [cbn in Hl; lia|]. destruct i; [reflexivity|]. cbn [firstn nth app]. f_equal. apply IH; cbn in Hl; lia. }
    rewrite F, map_app, <- app_assoc. reflexivity.
  Qed.
  Lemma filled_0 : filled 0 = repeat zero_key 16. Proof. reflexivity. Qed.
  Lemma filled_16 : filled 16 = map H known_subjects. Proof. unfold filled. replace (firstn 16 known_subjects) with known_subjects by reflexivity. apply app_nil_r. Qed.

  Lemma search_table s : forall ns, match search s ns (map H ns) with
    | Some name => In name ns /\ H name = s
    | None => forall name, In name ns -> H name <> s
    end.
  Proof.
    induction ns as [|n ns IH]; cbn [search map]; [intros name []|]. unfold key_eqb. destruct (list_eq_dec Z.eq_dec s (H n)) as [->|N]; [split; [left; reflexivity|reflexivity]|].
    destruct (search s ns (map H ns)); [destruct IH; split; [right; assumption|assumption]|]. intros name [<-|Hn]; [congruence|apply IH; exact Hn].
  Qed.
  Lemma names_known : known_subjects = names. Proof. reflexivity. Qed.
  Lemma names_good name : In name names -> (length name < 64)%nat /\ Forall (fun c => c <> 0) name.
  Proof.
    intros Hn. assert (F : forallb (fun n => (length n <? 64)%nat && forallb (fun c => negb (c =? 0)) n) names = true) by (vm_compute; reflexivity).
    rewrite forallb_forall in F. specialize (F name Hn). apply andb_prop in F as [F1 F2]. split; [apply Nat.ltb_lt; exact F1|]. apply Forall_forall. intros c Hc. rewrite forallb_forall in F2. specialize (F2 c Hc). lia.
  Qed.
  Lemma c_string_pad : forall name n, Forall (fun c => c <> 0) name -> c_string (name ++ repeat 0 (S n)) = name.
  Proof. induction 1 as [|c l Hc Hl IH]; cbn [app c_string repeat]; [reflexivity|]. rewrite (proj2 (Z.eqb_neq _ _) Hc). cbn [repeat] in IH. rewrite IH. reflexivity. Qed.
  Lemma look_right w s l : 64 <= l -> r_table w = map H known_subjects -> right_answer H (s, l, false, look w s l).
  Proof.
    intros Hl T. unfold look, right_answer. right. split; [exact Hl|]. split; [reflexivity|]. rewrite T. pose proof (search_table s known_subjects) as S. destruct (search s known_subjects (map H known_subjects)) as [name|].
    - destruct S as [Hin Hs]. rewrite names_known in Hin. destruct (names_good name Hin) as [L Z0]. left. exists name, (strncpy_name name l). split; [exact Hin|]. split; [exact Hs|]. split; [reflexivity|].
      unfold strncpy_name. rewrite firstn_all2 by lia. split; [rewrite app_length, repeat_length; lia|]. replace (Z.to_nat l - length name)%nat with (S (Z.to_nat l - length name - 1)) by lia. apply c_string_pad. exact Z0.
    - right. split; [rewrite <- names_known; exact S|]. destruct (Z.ltb_spec l 65); [right; split; [lia|reflexivity]|left; split; [lia|reflexivity]].
  Qed.

  (** one thread *)
  Definition pc_len (p : spc) : Prop := match p with SIdle => True | SCheck _ l | SFill _ _ l | SFlag _ l | SSearch _ l => 64 <= l end.
  Definition lone (a : nat) (w : regen) : Prop :=
    (forall b, b <> a -> r_pc w b = SIdle) /\ Forall (right_answer H) (r_log w) /\ pc_len (r_pc w a) /\ (r_flag w = false -> forall s l r, In (s, l, false, r) (r_log w) -> l < 64) /\
    match r_pc w a with
    | SFill i _ _ => r_flag w = false /\ (i < 16)%nat /\ r_table w = filled i
    | SFlag _ _ => r_flag w = false /\ r_table w = filled 16
    | SSearch _ _ => r_flag w = true /\ r_table w = filled 16
    | _ => (r_flag w = true /\ r_table w = filled 16) \/ (r_flag w = false /\ r_table w = filled 0)
    end.
  Lemma lone_step a w e w' : lone a w -> by_thread a e -> sstep H w e = Some w' -> lone a w'.
  Proof.
    intros (O & L & P & N & M) B E. destruct e as [b s l null|b]; cbn in B; subst b; cbn [sstep] in E.
    - destruct (r_pc w a) eqn:Pa; try discriminate. destruct ((l <? 64) || null) eqn:Q; injection E as <-.
      + split; [exact O|]. cbn [r_log r_pc r_flag r_table]. split; [constructor; [|exact L]; left; split; [|reflexivity]; apply orb_prop in Q as [Q|Q]; [left; lia|right; exact Q]|]. rewrite Pa. split; [exact I|].
        split; [|exact M]. intros Ef s' l' r [X|X]; [|eapply N; eassumption]. injection X as -> -> -> <-. rewrite orb_false_r in Q. lia.
      + apply orb_false_iff in Q as [Q _]. split; [intros b Hb; cbn; rewrite (proj2 (Nat.eqb_neq _ _) Hb); auto|]. split; [exact L|]. cbn. rewrite Nat.eqb_refl. split; [cbn; lia|]. split; [exact N|exact M].
    - assert (O' : forall p, (forall b, b <> a -> (if Nat.eqb b a then p else r_pc w b) = SIdle)) by (intros p b Hb; rewrite (proj2 (Nat.eqb_neq _ _) Hb); auto).
      destruct (r_pc w a) as [|s l|i s l|s l|s l] eqn:Pa; try discriminate; injection E as <-.
      + split; [apply O'|]. split; [exact L|]. cbn. rewrite Nat.eqb_refl. destruct M as [[M1 M2]|(M1 & M2)]; rewrite M1 in *; (split; [exact P|]); (split; [exact N|]); [split; [reflexivity|exact M2]|]. split; [reflexivity|]. split; [lia|exact M2].
      + destruct M as (M1 & M2 & M3). split; [apply O'|]. split; [exact L|]. cbn [set_pc r_pc r_flag r_table r_log]. rewrite Nat.eqb_refl. rewrite M3, fill_step by exact M2.
        destruct (Nat.ltb_spec (S i) 16); (split; [exact P|]); (split; [exact N|]); [split; [exact M1|]; split; [assumption|reflexivity]|]. replace (S i) with 16%nat by lia. split; [exact M1|reflexivity].
      + destruct M as (M1 & M2). split; [apply O'|]. split; [exact L|]. cbn. rewrite Nat.eqb_refl. split; [exact P|]. split; [discriminate|]. split; [reflexivity|exact M2].
      + destruct M as (M1 & M2). split; [apply O'|]. cbn [set_pc r_log r_pc r_flag r_table]. split; [constructor; [|exact L]; apply look_right; [exact P|]; rewrite M2; apply filled_16|]. rewrite Nat.eqb_refl. split; [exact I|]. split; [intros X; congruence|]. left. split; assumption.
  Qed.
  Lemma lone0 a : lone a regen0.
  Proof. split; [reflexivity|]. split; [constructor|]. split; [exact I|]. split; [intros _ s l r []|]. right. split; reflexivity. Qed.
  Lemma lone_steps a : forall es w w', lone a w -> Forall (by_thread a) es -> ssteps H w es = Some w' -> lone a w'.
  Proof. induction es as [|e es IH]; intros w w' G F E; cbn [ssteps] in E; [injection E as <-; exact G|]. destruct (sstep H w e) as [w1|] eqn:E1; [|discriminate]. inversion_clear F. apply (IH w1 w'); [apply (lone_step a w e); assumption|assumption|exact E]. Qed.

  (** any threads, once the table is made *)
  Definition made (w : regen) : Prop :=
    r_flag w = true /\ r_table w = filled 16 /\ Forall (right_answer H) (r_log w) /\
    forall b, pc_len (r_pc w b) /\ match r_pc w b with SFill _ _ _ | SFlag _ _ => False | _ => True end.
  Lemma made_step w e w' : made w -> sstep H w e = Some w' -> made w'.
  Proof.
    intros (F & T & L & P) E.
    assert (K : forall a p, pc_len p /\ match p with SFill _ _ _ | SFlag _ _ => False | _ => True end -> forall b, pc_len (if Nat.eqb b a then p else r_pc w b) /\ match (if Nat.eqb b a then p else r_pc w b) with SFill _ _ _ | SFlag _ _ => False | _ => True end) by (intros a p Hp b; destruct (Nat.eqb b a); auto).
    destruct e as [a s l null|a]; cbn [sstep] in E; pose proof (P a) as Pa; destruct (r_pc w a) as [|s1 l1|i s1 l1|s1 l1|s1 l1] eqn:Ea; try discriminate; try (exfalso; exact (proj2 Pa)).
    - destruct ((l <? 64) || null) eqn:Q; injection E as <-.
      + split; [exact F|]. split; [exact T|]. split; [cbn; constructor; [|exact L]; left; split; [|reflexivity]; apply orb_prop in Q as [Q|Q]; [left; lia|right; exact Q]|exact P].
      + apply orb_false_iff in Q as [Q _]. split; [exact F|]. split; [exact T|]. split; [exact L|]. cbn. apply K. cbn. split; [lia|exact I].
    - injection E as <-. rewrite F. split; [exact F|]. split; [exact T|]. split; [exact L|]. cbn. apply K. exact Pa.
    - injection E as <-. split; [exact F|]. split; [exact T|]. cbn [set_pc r_log r_pc]. split; [constructor; [|exact L]; apply look_right; [exact (proj1 Pa)|rewrite T; apply filled_16]|]. apply K. split; exact I.
  Qed.
  Lemma made_steps : forall es w w', made w -> ssteps H w es = Some w' -> made w'.
  Proof. induction es as [|e es IH]; intros w w' G E; cbn [ssteps] in E; [injection E as <-; exact G|]. destruct (sstep H w e) as [w1|] eqn:E1; [|discriminate]. apply (IH w1 w'); [apply (made_step w e); assumption|exact E]. Qed.
  Lemma lone_made a w s l r : lone a w -> In (s, l, false, r) (r_log w) -> 64 <= l -> made w.
  Proof.
    intros (O & L & P & N & M) Hin Hl. assert (F : r_flag w = true) by (destruct (r_flag w); [reflexivity|]; specialize (N eq_refl _ _ _ Hin); lia).
    assert (X : r_table w = filled 16 /\ match r_pc w a with SFill _ _ _ | SFlag _ _ => False | _ => True end) by (rewrite F in M; destruct (r_pc w a); intuition discriminate).
    destruct X as (T & Q). split; [exact F|]. split; [exact T|]. split; [exact L|]. intros b. destruct (Nat.eq_dec b a) as [->|Nb]; [split; assumption|]. rewrite (O b Nb). split; exact I.
  Qed.
End Table.
