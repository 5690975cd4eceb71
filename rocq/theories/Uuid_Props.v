(** C89: ids of messages, tokens and other things are different. *)
From Verif Require Import Base Channel_Model.
From Verif Require Import Uuid_Model Uuid_Spec Uuid_Proofs.

(** Two ids are the same only if they were made for the same sort of thing at the same reading of the clock, or if the hash fails.
    Missing: two things of the same sort made at the same reading, see below. *)
Theorem C89_different_partial H m1 m2 :
  reading (m_time m1) -> reading (m_time m2) -> id_of H m1 = id_of H m2 ->
  (m_thing m1 = m_thing m2 /\ m_time m1 = m_time m2) \/ collision H.
Proof.
  intros R1 R2 E. unfold id_of, new_id, uuid_create in E.
  set (x := uuid_input (fst (urn (m_thing m1))) (snd (urn (m_thing m1))) (m_time m1)) in *.
  set (y := uuid_input (fst (urn (m_thing m2))) (snd (urn (m_thing m2))) (m_time m2)) in *.
  destruct (list_eq_dec Z.eq_dec x y) as [X|X]; [left|right; exists x, y; auto].
  destruct (urn_plain (m_thing m1)) as [P1 U1]. destruct (urn_plain (m_thing m2)) as [P2 U2].
  destruct (uuid_input_inj _ _ _ _ _ _ P1 P2 U1 U2 R1 R2 X) as (A & _ & C).
  split; [apply urn_inj; assumption|assumption].
Qed.

(** the hash is always taken over 256 bytes, the time is never cut off *)
Theorem C89_input_complete x t : reading t -> length (uuid_input (fst (urn x)) (snd (urn x)) t) = 256%nat /\
  exists zeros, uuid_input (fst (urn x)) (snd (urn x)) t = uuid_text (fst (urn x)) (snd (urn x)) t ++ repeat 0 zeros /\ (153 <= zeros)%nat.
Proof.
  intros R. destruct (urn_plain x) as [(L & _) _].
  assert (T : (length (uuid_text (fst (urn x)) (snd (urn x)) t) <= 113)%nat).
  { unfold uuid_text. rewrite !app_length, digits_length, pad64_length by assumption. pose proof (seconds_length t). simpl length. lia. }
  unfold uuid_input. rewrite firstn_all2 by lia.
  assert (S : (length (seconds t) <= 27)%nat).
  { unfold seconds. rewrite !app_length, digits_length.
    assert (G : forall f n x, 0 <= x < 10 ^ Z.of_nat n -> (0 < n)%nat -> (length (unsigned f x) <= n)%nat).
    { clear. induction f as [|f IH]; intros n x X N; simpl; [lia|]. rewrite app_length. simpl. destruct (x <? 10) eqn:B; simpl; [lia|].
      destruct n as [|[|n]]; [lia|simpl in X; lia|].
      specialize (IH (S n) (x / 10)). rewrite Nat2Z.inj_succ, Z.pow_succ_r in X by lia.
      specialize (IH ltac:(split; [apply Z.div_pos; lia|apply Z.div_lt_upper_bound; lia]) ltac:(lia)). lia. }
    specialize (G 20%nat 10%nat (decimals t / 10000000000000000)). simpl length at 2.
    assert (0 <= decimals t / 10000000000000000 < 10 ^ Z.of_nat 10).
    { destruct R as [A B]. pose proof (round_even_bounds (t * 152587890625) 64 ltac:(lia)).
      change (2 ^ 52) with 4503599627370496 in A. change (2 ^ 53) with 9007199254740992 in B. unfold decimals.
      split; [apply Z.div_pos; lia|]. change (10 ^ Z.of_nat 10) with 10000000000. apply Z.div_lt_upper_bound; lia. }
    specialize (G H ltac:(lia)). lia. }
  assert (T2 : (length (uuid_text (fst (urn x)) (snd (urn x)) t) <= 103)%nat).
  { unfold uuid_text. rewrite !app_length, digits_length, pad64_length by assumption. simpl length. lia. }
  split; [rewrite app_length, repeat_length; lia|]. eexists; split; [reflexivity|lia].
Qed.

(** Neither the node, the receiver nor the content take part: two messages made at the same reading of the clock, on any two nodes
    (or in two threads of one), have the same id, whatever the hash function. *)
Theorem C89_same_time_refuted H n1 n2 t : 
  id_of H (mkMade AMessage n1 t) = id_of H (mkMade AMessage n2 t).
Proof. reflexivity. Qed.

(** ... and a receiver of both that looks for duplicates loses the second one, although it is another message of another sender. *)
Theorem C89_lost_refuted H (number : list Z -> Z) n1 n2 t k s1 s2 e1 e2 :
  k_unique k = true -> k_recv k = true -> 1 <= k_max k -> s1 <> s2 ->
  let m1 := mkMsg (number (id_of H (mkMade AMessage n1 t))) s1 e1 true in
  let m2 := mkMsg (number (id_of H (mkMade AMessage n2 t))) s2 e2 true in
  m1 <> m2 /\
  exists c, run [(mkEnv 0 (fun _ => true) 255, Arrive m1); (mkEnv 0 (fun _ => true) 255, Arrive m2)] (start k) = Ok c /\
    given c = [m1] /\ dups c = [m2].
Proof.
  intros U R M D m1 m2. split; [unfold m1, m2; congruence|].
  set (c1 := mkChan k [] [] 0 [(m_uuid m1, e1)] [] [m1] [] [] [] []).
  assert (TH : threshold_decrease (threshold_increase k 0) = 0).
  { unfold threshold_increase. replace (0 <? k_max k) with true by lia. reflexivity. }
  assert (B : forall c, cfg c = k -> thr c = 0 -> threshold_breached c = false).
  { intros c C T. unfold threshold_breached. rewrite C, T. lia. }
  exists (mkChan k [] [] 0 [(m_uuid m1, e1)] [] [m1] [] [m2] [] []).
  assert (S1 : take (fun _ => true) 255 m1 (start k) = Ok c1).
  { unfold take. rewrite B by reflexivity. cbn [negb andb]. unfold start at 1. cbn [cfg]. rewrite R.
    unfold handle_in_msg, start. cbn [cfg cache pend thr seen awaiting given failed dups dropped expired]. rewrite U, TH. reflexivity. }
  assert (S2 : take (fun _ => true) 255 m2 c1 = Ok (mkChan k [] [] 0 [(m_uuid m1, e1)] [] [m1] [] [m2] [] [])).
  { unfold take. rewrite B by reflexivity. cbn [negb andb]. unfold c1 at 1. cbn [cfg]. rewrite R.
    unfold handle_in_msg, c1. cbn [cfg cache pend thr seen awaiting given failed dups dropped expired]. rewrite U, TH.
    assert (K : known (m_uuid m2) [(m_uuid m1, e1)] = true).
    { unfold known. simpl. change (id_of H (mkMade AMessage n1 t)) with (id_of H (mkMade AMessage n2 t)). rewrite Z.eqb_refl. reflexivity. }
    rewrite K. reflexivity. }
  cbn [run step e_has e_room]. rewrite S1. cbn [obind]. rewrite S2. split; [reflexivity|]. split; reflexivity.
Qed.

(** 17 November 2026, 05:00:00.25 UTC *)
Example C89_text_ex : seconds (1794891600 * 4194304 + 1048576) =
  [49; 55; 57; 52; 56; 57; 49; 54; 48; 48; 46; 50; 53; 48; 48; 48; 48; 48; 48; 48; 48; 48; 48; 48; 48; 48; 48].
Proof. vm_compute. reflexivity. Qed.
Example C89_ex : reading (1794891600 * 4194304 + 1048576) /\
  uuid_input (fst (urn AMessage)) (snd (urn AMessage)) (1794891600 * 4194304) <>
  uuid_input (fst (urn AMessage)) (snd (urn AMessage)) (1794891600 * 4194304 + 1).
Proof. split; [unfold reading; lia|]. intros E. vm_compute in E. discriminate. Qed.

Print Assumptions C89_different_partial.
Print Assumptions C89_input_complete.
Print Assumptions C89_same_time_refuted.
Print Assumptions C89_lost_refuted.
