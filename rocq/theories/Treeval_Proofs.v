(** Sizes cover encodings; encodings can be read back. *)
From Verif Require Import Base Dhkey_Model Rbtree_Model Rbtree_Spec Rbtree_Proofs Tree_Model Tree_Spec Tree_Proofs
  Cbor_Model Cbor_Proofs Treeval_Model Treeval_Spec.

Definition is_tree (v : tval) : bool := match v with VTree _ _ => true | _ => false end.

Lemma tval_ind2 (P : tval -> Prop) : (forall v, is_tree v = false -> P v) ->
  (forall w l, Forall (fun e => P (snd e)) l -> P (VTree w l)) -> forall v, P v.
Proof.
  intros H1 H2. fix rec 1. intros v. destruct v; try (apply H1; reflexivity). apply H2.
  induction l as [|[k x] l IH]; constructor; [apply rec|exact IH].
Qed.

Fixpoint write_entries (l : list (ukey * tval)) : option (Z * list Z) :=
  match l with
  | [] => Some (0, [])
  | (k, x) :: l' =>
      match write_key k with
      | None => write_entries l'
      | Some bk =>
          match write x, write_entries l' with
          | Some bx, Some (n, bs) => Some (n + 1, bk ++ bx ++ bs)
          | _, _ => None
          end
      end
  end.
Lemma write_tree w l : write (VTree w l) =
  match write_entries l with
  | Some (n, bs) => Some (wrap_tag w ++ enc_tag (reg 20) ++ head 5 n ++ bs)
  | None => None
  end.
Proof. reflexivity. Qed.

Lemma some_inj {A} (a b : A) : Some a = Some b -> b = a.
Proof. congruence. Qed.

(** ** Sizes *)
Notation zlen l := (Z.of_nat (length l)).

Lemma head_extra m a : 0 <= a < 18446744073709551616 -> zlen (head m a) = 1 + extra64 a.
Proof.
  intros Ha. rewrite head_length by lia. unfold extra64, extra32, extra16, extra8.
  destruct (Z.ltb_spec a 24), (Z.ltb_spec a 256), (Z.ltb_spec a 65536), (Z.ltb_spec a 4294967296);
    destruct (a >? 4294967295) eqn:E1; destruct (a >? 65535) eqn:E2; destruct (a >? 255) eqn:E3; destruct (a >=? 24) eqn:E4; lia.
Qed.
Lemma extra64_mono a b : 0 <= a <= b -> extra64 a <= extra64 b.
Proof.
  intros H. unfold extra64, extra32, extra16, extra8.
  destruct (a >? 4294967295) eqn:E1; destruct (a >? 65535) eqn:E2; destruct (a >? 255) eqn:E3; destruct (a >=? 24) eqn:E4;
  destruct (b >? 4294967295) eqn:F1; destruct (b >? 65535) eqn:F2; destruct (b >? 255) eqn:F3; destruct (b >=? 24) eqn:F4; lia.
Qed.
Lemma extra32_64 a : a <= 4294967295 -> extra32 a = extra64 a.
Proof. intros. unfold extra64. destruct (a >? 4294967295) eqn:E; [lia|reflexivity]. Qed.
Lemma extra16_64 a : a <= 65535 -> extra16 a = extra64 a.
Proof. intros. rewrite <- extra32_64 by lia. unfold extra32. destruct (a >? 65535) eqn:E; [lia|reflexivity]. Qed.
Lemma extra8_64 a : a <= 255 -> extra8 a = extra64 a.
Proof. intros. rewrite <- extra16_64 by lia. unfold extra16. destruct (a >? 255) eqn:E; [lia|reflexivity]. Qed.
Lemma extra64_pos a : 0 <= extra64 a.
Proof. unfold extra64, extra32, extra16, extra8. repeat match goal with |- context[if ?c then _ else _] => destruct c end; lia. Qed.

Lemma enc_int_length z : -9223372036854775808 <= z < 18446744073709551616 ->
  zlen (enc_int z) <= 1 + extra64 (if z >? 0 then z else - z).
Proof.
  intros Hz. unfold enc_int. destruct (Z.ltb_spec z 0); rewrite head_extra by lia; destruct (z >? 0) eqn:E; try lia.
  - pose proof (extra64_mono (-1 - z) (- z)). lia.
  - assert (z = 0) as -> by lia. change (- 0) with 0. lia.
Qed.
Lemma tag_length ty : 0 <= ty <= 64 -> zlen (enc_tag (reg ty)) = 3.
Proof.
  intros H. unfold enc_tag, reg. rewrite head_length by lia.
  destruct (Z.ltb_spec (31415 + ty) 24), (Z.ltb_spec (31415 + ty) 256), (Z.ltb_spec (31415 + ty) 65536); lia.
Qed.
Lemma tag_int_length ty z : 0 <= ty <= 64 -> -9223372036854775808 <= z < 18446744073709551616 ->
  zlen (enc_tag (reg ty) ++ enc_int z) <= 4 + extra64 (if z >? 0 then z else - z).
Proof. intros. rewrite app_length, Nat2Z.inj_add, tag_length by lia. pose proof (enc_int_length z). lia. Qed.
Lemma tag_nat_length ty z : 0 <= ty <= 64 -> 0 <= z < 18446744073709551616 ->
  zlen (enc_tag (reg ty) ++ enc_int z) <= 4 + extra64 z.
Proof.
  intros. pose proof (tag_int_length ty z). destruct (z >? 0) eqn:?; [lia|]. assert (z = 0) as -> by lia. change (- 0) with 0 in *. lia.
Qed.
Lemma dhkey_length k : wf_key k -> zlen (enc_dhkey k) = 44.
Proof.
  intros [Lk Fk]. unfold enc_dhkey. rewrite !app_length, !Nat2Z.inj_add, tag_length by lia.
  change (zlen (head 4 8)) with 1.
  assert (E : forall l, Forall is_word l -> length (flat_map (head4 0) l) = (5 * length l)%nat).
  { induction 1 as [|x l Hx _ IH]; [reflexivity|]. cbn [flat_map length]. rewrite app_length, IH, head4_length; [lia|].
    unfold is_word in Hx. lia. }
  rewrite E by exact Fk. rewrite Lk. reflexivity.
Qed.
Lemma text_length b : zlen b < 18446744073709551616 -> zlen (enc_text b) = 1 + extra64 (zlen b) + zlen b.
Proof. intros. unfold enc_text. rewrite app_length, Nat2Z.inj_add, head_extra by lia. lia. Qed.
Lemma bytes_length b : zlen b < 18446744073709551616 -> zlen (enc_bytes b) = 1 + extra64 (zlen b) + zlen b.
Proof. intros. unfold enc_bytes. rewrite app_length, Nat2Z.inj_add, head_extra by lia. lia. Qed.

Lemma extra64_le8 a : extra64 a <= 8.
Proof. unfold extra64, extra32, extra16, extra8. repeat match goal with |- context[if ?c then _ else _] => destruct c end; lia. Qed.
Lemma head_le m a : 0 <= a -> zlen (head m a) <= 1 + extra64 a.
Proof.
  intros. rewrite head_length by lia. unfold extra64, extra32, extra16, extra8.
  destruct (Z.ltb_spec a 24), (Z.ltb_spec a 256), (Z.ltb_spec a 65536), (Z.ltb_spec a 4294967296);
    destruct (a >? 4294967295) eqn:E1; destruct (a >? 65535) eqn:E2; destruct (a >? 255) eqn:E3; destruct (a >=? 24) eqn:E4; lia.
Qed.

Lemma key_size_ok u bs : sized_key u -> write_key u = Some bs -> zlen bs <= key_bytes u.
Proof.
  intros S E. destruct u as [s|i|d|i|k|b]; cbn [write_key key_bytes] in *; inversion S; subst; try discriminate; apply some_inj in E; subst bs.
  - unfold enc_text. rewrite app_length, Nat2Z.inj_add. pose proof (head_le 3 (zlen s)). lia.
  - rewrite extra16_64 by (destruct (i >? 0) eqn:?; lia). apply tag_int_length; lia.
  - unfold enc_double. cbn [length]. rewrite be_length. lia.
  - rewrite extra32_64 by lia. apply tag_nat_length; lia.
  - rewrite dhkey_length by assumption. lia.
Qed.

Lemma sum_cons {A} (f : A -> Z) x l : sum_sizes f (x :: l) = f x + sum_sizes f l.
Proof. reflexivity. Qed.

Lemma key_bytes_pos u : 0 <= key_bytes u.
Proof.
  destruct u; cbn [key_bytes]; try lia.
  - pose proof (extra64_pos (zlen s)). lia.
  - unfold extra16, extra8. repeat match goal with |- context[if ?c then _ else _] => destruct c end; lia.
  - unfold extra32, extra16, extra8. repeat match goal with |- context[if ?c then _ else _] => destruct c end; lia.
Qed.
Lemma val_bytes_pos v : 0 <= val_bytes v.
Proof.
  induction v as [v Hv|w l F] using tval_ind2.
  - destruct v; try discriminate; cbn [val_bytes]; unfold extra64, extra32, extra16, extra8;
      repeat match goal with |- context[if ?c then _ else _] => destruct c end; lia.
  - cbn [val_bytes]. pose proof (extra64_pos (zlen l)).
    assert (0 <= sum_sizes (fun e => key_bytes (fst e) + val_bytes (snd e)) l).
    { induction F as [|[k x] l Hx _ IH]; [cbn; lia|]. rewrite sum_cons. cbn [fst snd] in *. pose proof (key_bytes_pos k).
      assert (0 <= extra64 (zlen l)) by apply extra64_pos. specialize (IH H1). lia. }
    destruct w; lia.
Qed.

Lemma entries_size_ok l : Forall (fun e => sized (snd e) -> forall bs, write (snd e) = Some bs -> zlen bs <= val_bytes (snd e)) l ->
  (forall u v, In (u, v) l -> sized_key u /\ sized v) ->
  forall n bs, write_entries l = Some (n, bs) ->
  0 <= n <= zlen l /\ zlen bs <= sum_sizes (fun e => key_bytes (fst e) + val_bytes (snd e)) l.
Proof.
  induction 1 as [|[k x] l Hx _ IH]; intros Hs n bs E.
  { cbn in E. injection E as <- <-. cbn. lia. }
  cbn [write_entries] in E. destruct (Hs k x) as [Hk Hv]; [left; reflexivity|].
  assert (Hs' : forall u v, In (u, v) l -> sized_key u /\ sized v) by (intros u v H; apply Hs; right; exact H).
  rewrite sum_cons. cbn [fst snd length] in *.
  destruct (write_key k) as [bk|] eqn:Ek.
  - destruct (write x) as [bx|] eqn:Ex; [|discriminate]. destruct (write_entries l) as [[n' bs']|]; [|discriminate].
    injection E as <- <-. destruct (IH Hs' _ _ eq_refl) as [I1 I2]. pose proof (key_size_ok k bk Hk Ek).
    specialize (Hx Hv bx eq_refl). rewrite !app_length. lia.
  - destruct (IH Hs' _ _ E) as [I1 I2]. pose proof (key_bytes_pos k). pose proof (val_bytes_pos x). lia.
Qed.

Lemma val_size_ok v : sized v -> forall bs, write v = Some bs -> zlen bs <= val_bytes v.
Proof.
  induction v as [v Hv|w l F] using tval_ind2; intros S bs E.
  - destruct v; try discriminate; cbn [write val_bytes] in *; apply some_inj in E; subst bs; inversion S; subst.
    + rewrite extra8_64 by (destruct (z >? 0) eqn:?; lia). apply tag_int_length; lia.
    + rewrite extra16_64 by (destruct (z >? 0) eqn:?; lia). apply tag_int_length; lia.
    + unfold absolute. change (2 ^ (32 - 1)) with 2147483648.
      assert ((if z >? 0 then z else - z) < 2147483648) by (destruct (z >? 0) eqn:?; lia).
      destruct ((if z >? 0 then z else - z) >=? 2147483648) eqn:?; [lia|]. rewrite extra32_64 by lia. apply tag_int_length; lia.
    + unfold absolute. change (2 ^ (64 - 1)) with 9223372036854775808.
      assert ((if z >? 0 then z else - z) < 9223372036854775808) by (destruct (z >? 0) eqn:?; lia).
      destruct ((if z >? 0 then z else - z) >=? 9223372036854775808) eqn:?; [lia|]. apply tag_int_length; lia.
    + rewrite extra8_64 by lia. apply tag_nat_length; lia.
    + rewrite s16_small by lia. rewrite extra16_64 by lia. apply tag_nat_length; lia.
    + rewrite extra32_64 by lia. apply tag_nat_length; lia.
    + apply tag_nat_length; lia.
    + unfold enc_text. rewrite app_length, Nat2Z.inj_add. pose proof (head_le 3 (zlen s)). lia.
    + cbn. lia.
    + unfold enc_float. cbn [length]. rewrite be_length. lia.
    + unfold enc_double. cbn [length]. rewrite be_length. lia.
    + rewrite !app_length, !Nat2Z.inj_add, tag_length by lia. change (zlen (head 4 2)) with 1.
      rewrite !extra16_64 by lia. pose proof (enc_int_length a). pose proof (enc_int_length b).
      assert ((if a >? 0 then a else - a) = a) by (destruct (a >? 0) eqn:?; lia).
      assert ((if b >? 0 then b else - b) = b) by (destruct (b >? 0) eqn:?; lia).
      replace (if a >? 0 then a else - a) with a in * by lia. replace (if b >? 0 then b else - b) with b in * by lia. lia.
    + rewrite extra32_64 by lia. rewrite bytes_length by lia. lia.
    + rewrite app_length, Nat2Z.inj_add, tag_length, bytes_length by lia.
      assert (extra64 (zlen b) <= 1).
      { rewrite <- extra8_64 by lia. unfold extra8. destruct (zlen b >=? 24); lia. }
      lia.
    + rewrite dhkey_length by assumption. lia.
  - inversion S as [| | | | | | | | | | | | | | | | |? ? Hs]; subst. rewrite write_tree in E.
    destruct (write_entries l) as [[n bs']|] eqn:Ee; [|discriminate]. apply some_inj in E; subst bs.
    destruct (entries_size_ok l F Hs n bs' Ee) as [In_ Ib]. cbn [val_bytes].
    rewrite !app_length, !Nat2Z.inj_add, tag_length by lia.
    pose proof (head_le 5 n). pose proof (extra64_mono n (zlen l)).
    assert (zlen (wrap_tag w) <= match w with Plain => 0 | _ => 3 end) by (destruct w; cbn; lia). lia.
Qed.

(** ** Round trip *)
Lemma double_rt d : a_double d -> 0 <= double_bits d < 18446744073709551616 /\ double_rank (double_bits d) = d.
Proof.
  destruct d as [r|]; [|intros _; split; [cbn; lia|reflexivity]]. cbn [a_double double_bits]. intros H.
  destruct (Z.ltb_spec r 0).
  - split; [lia|]. unfold double_rank.
    assert (E : (9223372036854775808 - r) mod 9223372036854775808 = - r).
    { replace (9223372036854775808 - r) with (- r + 1 * 9223372036854775808) by lia. rewrite Z_mod_plus_full. apply Z.mod_small. lia. }
    rewrite E. destruct (- r >? 9218868437227405312) eqn:?; [lia|].
    destruct (9223372036854775808 - r >=? 9223372036854775808) eqn:?; [|lia]. f_equal. lia.
  - split; [lia|]. unfold double_rank. rewrite Z.mod_small by lia. destruct (r >? 9218868437227405312) eqn:?; [lia|].
    destruct (r >=? 9223372036854775808) eqn:?; [lia|]. reflexivity.
Qed.
Lemma in_range_id lo hi z : lo <= z <= hi -> in_range lo hi z = z.
Proof. intros. unfold in_range. destruct (Z.leb_spec lo z), (Z.leb_spec z hi); cbn; try reflexivity; lia. Qed.

Lemma read_words_rt k : forall rest, Forall is_word k -> read_words (length k) (flat_map (head4 0) k ++ rest) = Some (k, rest).
Proof.
  induction k as [|x k IH]; intros rest F; [reflexivity|]. inversion F as [|? ? Hx F']; subst. cbn [length flat_map read_words].
  unfold is_word in Hx. rewrite <- app_assoc. rewrite (reads_next _ _ _ _ (reads_word x ltac:(lia))). rewrite IH by exact F'. rewrite in_range_id by lia. reflexivity.
Qed.

Ltac eqbs := repeat match goal with |- context[?a =? ?b] => let r := eval vm_compute in (a =? b) in
  match r with true => change (a =? b) with true | false => change (a =? b) with false end end; cbv iota.
Ltac rd H := match type of H with reads ?b ?t ?i => rewrite (reads_next b t i _ H) end; cbv beta iota zeta; cbn [hd tl app]; eqbs.
Ltac byint z := rd (reads_tag (reg 1) _ _ _ ltac:(cbn; lia) (reads_int z ltac:(lia))).

(** What [read] gives for a value that is not a tree *)
Definition rt (v : tval) : Prop := exists bs, write v = Some bs /\
  forall fuel rest, (length bs <= fuel)%nat -> read fuel (bs ++ rest) = Some (v, rest).

Lemma fuel_pos {A} (bs : list A) fuel : (1 <= length bs)%nat -> (length bs <= fuel)%nat -> exists f, fuel = S f.
Proof. intros. destruct fuel; [lia|eauto]. Qed.

Lemma no_zero s : Forall (fun b => 1 <= b <= 255) s -> existsb (Z.eqb 0) s = false.
Proof.
  induction 1 as [|x s Hx _ IH]; [reflexivity|]. cbn [existsb]. destruct (Z.eqb_spec 0 x); [lia|]. exact IH.
Qed.

Lemma tagged_int_rt ty z (V : tval) fuel rest : 0 <= reg ty < 18446744073709551616 ->
  -9223372036854775808 <= z <= 9223372036854775807 ->
  (Some (if reg ty =? reg 10 then VUshort (in_range 0 255 z)
                    else if reg ty =? reg 11 then VUint (in_range 0 65535 z)
                    else if reg ty =? reg 12 then VUlong (in_range 0 4294967295 z)
                    else if reg ty =? reg 13 then VUlongLong (in_range 0 9223372036854775807 z)
                    else if reg ty =? reg 1 then VShort (in_range (-128) 127 z)
                    else if reg ty =? reg 2 then VInt (in_range (-32768) 32767 z)
                    else if reg ty =? reg 3 then VLong (in_range (-2147483648) 2147483647 z)
                    else if reg ty =? reg 4 then VLongLong z
                    else VOther 0, rest) = Some (V, rest)) ->
  read (S fuel) ((enc_tag (reg ty) ++ enc_int z) ++ rest) = Some (V, rest).
Proof.
  intros Ht Hz E. cbn [read]. rewrite (reads_next _ _ _ rest (reads_tag (reg ty) _ _ _ Ht (reads_int z Hz))).
  cbv beta iota zeta. cbn [hd tl app]. exact E.
Qed.

Lemma tag_int_nonempty ty z : (1 <= length (enc_tag (reg ty) ++ enc_int z))%nat.
Proof. rewrite app_length. pose proof (head_nonempty 6 (reg ty)). unfold enc_tag. lia. Qed.

Lemma leaf_rt v : storable v -> is_tree v = false -> rt v.
Proof.
  intros S Hv. destruct S; try discriminate Hv; unfold rt; eexists; (split; [reflexivity|]); intros fuel rest L.
  1-8: (destruct (fuel_pos _ fuel (tag_int_nonempty _ _) L) as (f & ->);
        apply tagged_int_rt; [cbv; split; [discriminate|reflexivity]|lia|]; eqbs; rewrite ?in_range_id by lia; reflexivity).
  - (* string *)
    assert (R : reads (enc_text s) [] (IText s)) by (apply reads_text; lia).
    assert (Hf : (1 <= fuel)%nat) by (etransitivity; [|exact L]; unfold enc_text; rewrite app_length; pose proof (head_nonempty 3 (zlen s)); lia). destruct fuel as [|f]; [lia|].
    cbn [read]. rewrite (reads_next _ _ _ rest R). cbv beta iota zeta. rewrite (no_zero s) by assumption.
    destruct s as [|x [|y s]]; [reflexivity|cbn in H; lia|reflexivity].
  - assert (R : reads (enc_text [c]) [] (IText [c])) by (apply reads_text; cbn; lia).
    assert (Hf : (1 <= fuel)%nat) by (etransitivity; [|exact L]; cbn; lia). destruct fuel as [|f]; [lia|].
    cbn [read]. rewrite (reads_next _ _ _ rest R). reflexivity.
  - destruct (double_rt d H) as [B E]. pose proof (reads_double (double_bits d) B) as R.
    assert (Hf : (1 <= fuel)%nat) by (etransitivity; [|exact L]; unfold enc_double; cbn; lia). destruct fuel as [|f]; [lia|].
    cbn [read]. rewrite (reads_next _ _ _ rest R). cbv beta iota zeta. rewrite E. reflexivity.
  - (* two numbers *)
    pose proof (reads_tag (reg 14) _ _ _ ltac:(cbv; split; [discriminate|reflexivity]) (reads_array 2 ltac:(lia))) as R.
    assert (Hf : (1 <= fuel)%nat) by (etransitivity; [|exact L]; rewrite app_length; pose proof (head_nonempty 6 (reg 14)); unfold enc_tag; lia). destruct fuel as [|f]; [lia|].
    cbn [read]. replace ((enc_tag (reg 14) ++ head 4 2 ++ enc_int a ++ enc_int b) ++ rest)
      with ((enc_tag (reg 14) ++ head 4 2) ++ enc_int a ++ enc_int b ++ rest) by (rewrite <- !app_assoc; reflexivity).
    rewrite (reads_next _ _ _ _ R). cbv beta iota zeta. cbn [hd app]. eqbs.
    rewrite (reads_next _ _ _ _ (reads_int a ltac:(lia))). cbv beta iota.
    rewrite (reads_next _ _ _ _ (reads_int b ltac:(lia))). cbv beta iota. rewrite !in_range_id by lia. reflexivity.
  - assert (R : reads (enc_bytes b) [] (IBytes b)) by (apply reads_bytes; lia).
    assert (Hf : (1 <= fuel)%nat) by (etransitivity; [|exact L]; unfold enc_bytes; rewrite app_length; pose proof (head_nonempty 2 (zlen b)); lia). destruct fuel as [|f]; [lia|].
    cbn [read]. rewrite (reads_next _ _ _ rest R). reflexivity.
  - pose proof (reads_tag (reg 23) _ _ _ ltac:(cbv; split; [discriminate|reflexivity]) (reads_bytes b ltac:(lia))) as R.
    assert (Hf : (1 <= fuel)%nat) by (etransitivity; [|exact L]; rewrite app_length; pose proof (head_nonempty 6 (reg 23)); unfold enc_tag; lia). destruct fuel as [|f]; [lia|].
    cbn [read]. rewrite (reads_next _ _ _ rest R). cbv beta iota zeta. cbn [hd app]. eqbs. reflexivity.
  - pose proof (reads_tag (reg 21) _ _ _ ltac:(cbv; split; [discriminate|reflexivity]) (reads_array 8 ltac:(lia))) as R.
    assert (Hf : (1 <= fuel)%nat) by (etransitivity; [|exact L]; unfold enc_dhkey; rewrite app_length; pose proof (head_nonempty 6 (reg 21)); unfold enc_tag; lia). destruct fuel as [|f]; [lia|].
    cbn [read]. unfold enc_dhkey. replace ((enc_tag (reg 21) ++ head 4 8 ++ flat_map (head4 0) k) ++ rest)
      with ((enc_tag (reg 21) ++ head 4 8) ++ flat_map (head4 0) k ++ rest) by (rewrite <- !app_assoc; reflexivity).
    rewrite (reads_next _ _ _ _ R). cbv beta iota zeta. cbn [hd app]. eqbs.
    destruct H as [Lk Fk]. rewrite <- Lk, read_words_rt by exact Fk. reflexivity.
Qed.

(** Keys are written like values *)
Definition key_val (u : ukey) : tval :=
  match u with UStr s => VStr s | UInt i => VInt i | UDbl d => VDouble d | UUlong i => VUlong i | UDhkey k => VDhkey k | UUuid _ => VOther 22 end.
Lemma key_rt u : storable_key u -> storable (key_val u) /\ is_tree (key_val u) = false /\ write_key u = write (key_val u) /\ key_of_val (key_val u) = Some u.
Proof.
  destruct u; cbn [storable_key key_val]; intros H; try contradiction; (split; [constructor; try tauto; try lia|repeat split]).
Qed.

(** Writing and reading the entries of a tree *)
Lemma entries_rt (l : list (elem (V := tval))) :
  Forall (fun e => storable_key (key_back (fst e)) /\ rt (snd e)) l ->
  exists bs, write_entries (map (fun e => (key_back (fst e), snd e)) l) = Some (zlen l, bs) /\
    forall f t rest t', (length bs <= f)%nat ->
      copy_loop vinsert l t = Ok t' ->
      read_pairs (read f) (length l) t (bs ++ rest) = Some (t', rest).
Proof.
  induction 1 as [|[k x] l [Hk (bx & Ex & Rx)] F IH].
  - exists []. split; [reflexivity|]. intros f t rest t' _ E. injection E as <-. reflexivity.
  - cbn [fst snd] in *. destruct (key_rt _ Hk) as (Sk & Tk & Ek & Bk). destruct (leaf_rt _ Sk Tk) as (bk & Ewk & Rk).
    destruct IH as (bs & Ebs & Rbs). exists (bk ++ bx ++ bs). split.
    + cbn [map write_entries fst snd]. rewrite Ek, Ewk, Ex, Ebs. do 2 f_equal. cbn [length]. lia.
    + intros f t rest t' L E. rewrite !app_length in L. cbn [length read_pairs]. rewrite <- !app_assoc. rewrite Rk by lia.
      rewrite Rx by lia. rewrite Bk. cbn [copy_loop] in E.
      destruct (vinsert (key_back k) x t) as [t1| |]; try discriminate. cbn [obind] in E. apply Rbs; [lia|exact E].
Qed.

(** Two sorted lists with the same elements are equal *)
Lemma srt_unique (l1 : list (elem (V := tval))) : forall l2, sorted lexc val l1 -> sorted lexc val l2 ->
  (forall e, In e l1 <-> In e l2) -> l1 = l2.
Proof.
  induction l1 as [|a l1 IH]; intros [|b l2] S1 S2 H; [reflexivity| | |].
  - exfalso. apply (H b). left. reflexivity.
  - exfalso. apply (H a). left. reflexivity.
  - inversion S1 as [|? ? S1' F1]; inversion S2 as [|? ? S2' F2]; subst. rewrite Forall_forall in F1, F2.
    assert (E : a = b).
    { destruct (proj1 (H a) (or_introl eq_refl)) as [E|Ha]; [auto|]. destruct (proj2 (H b) (or_introl eq_refl)) as [E|Hb]; [auto|].
      specialize (F1 _ Hb). specialize (F2 _ Ha). rewrite (ord_sym _ lexc_order) in F1. rewrite F2 in F1. discriminate. }
    subst b. f_equal. apply IH; auto. intros e. split; intros He.
    + destruct (proj1 (H e) (or_intror He)) as [<-|]; [|assumption]. specialize (F1 _ He). apply lt_neq in F1. congruence.
    + destruct (proj2 (H e) (or_intror He)) as [<-|]; [|assumption]. specialize (F2 _ He). apply lt_neq in F2. congruence.
Qed.

Lemma inv_unique K m (t t' : vtree) : Inv stored_bytes val_bytes K m t -> Inv stored_bytes val_bytes K m t' ->
  elements (root t) = elements (root t').
Proof.
  intros I I'. apply srt_unique; [apply (inv_sorted _ _ _ _ _ I)|apply (inv_sorted _ _ _ _ _ I')|].
  assert (H : forall s s' : vtree, Inv stored_bytes val_bytes K m s -> Inv stored_bytes val_bytes K m s' ->
    forall e, In e (elements (root s)) -> In e (elements (root s'))).
  { intros s s' Is Is' [k v] He. pose proof (inv_stored _ _ _ _ _ Is) as F. rewrite Forall_forall in F.
    destruct (F _ He) as (u & Hu & Ek). cbn in Ek. subst k. apply (inv_map _ _ _ _ _ Is'); auto. apply (inv_map _ _ _ _ _ Is); auto. }
  intros e. split; apply H; assumption.
Qed.

Lemma vrun_inv K h t : keys_of_kind K h -> vrun h = Ok t -> Inv stored_bytes val_bytes K (bindings h no_bindings) t.
Proof.
  intros F E. destruct (run_inv (VOther 0) stored_bytes val_bytes K h no_bindings np_tree_create) as (t' & E' & I').
  - apply inv_empty. reflexivity.
  - exact F.
  - unfold vrun in E. rewrite E in E'. injection E' as <-. exact I'.
Qed.

Lemma recopy K m (t : vtree) : Inv stored_bytes val_bytes K m t ->
  exists t', copy_loop vinsert (elements (root t)) np_tree_create = Ok t' /\ entries t' = entries t.
Proof.
  intros I. destruct (copy_step (VOther 0) stored_bytes val_bytes K m t no_bindings np_tree_create I) as (t' & E & I').
  { apply inv_empty. reflexivity. }
  exists t'. split; [exact E|]. unfold entries. f_equal. symmetry. eapply inv_unique; eauto.
Qed.

Lemma map_reads w n : 0 <= n < 18446744073709551616 ->
  reads (wrap_tag w ++ enc_tag (reg 20) ++ head 5 n) (reg 20 :: match w with Plain => [] | Cwt => [61] | Signed => [98] | Encrypted => [96] end) (IMap n).
Proof.
  intros Hn. pose proof (reads_tag (reg 20) _ _ _ ltac:(cbv; split; [discriminate|reflexivity]) (reads_map n Hn)) as R.
  destruct w; cbn [wrap_tag app]; [exact R| | |];
    (eapply (reads_tag _ _ [reg 20]); [lia|exact R]).
Qed.

Lemma value_rt v : storable v -> rt v.
Proof.
  induction v as [v Hv|w l F] using tval_ind2; intros S; [apply leaf_rt; assumption|].
  inversion S as [| | | | | | | | | | | | | | |? K h t Hk Hr Hn He]; subst.
  pose proof (vrun_inv K h t Hk Hr) as I. destruct (recopy K _ t I) as (t' & Ec & Ee).
  destruct (entries_rt (elements (root t))) as (bs & Eb & Rb).
  { rewrite Forall_forall in *. intros e Hin.
    assert (Hi : In (key_back (fst e), snd e) (entries t)) by (unfold entries; apply (in_map (fun e => (key_back (fst e), snd e))); exact Hin).
    destruct (He _ _ Hi) as [H1 H2]. split; [exact H1|]. exact (F _ Hi H2). }
  fold (entries t) in Eb. unfold rt. rewrite write_tree, Eb. eexists. split; [reflexivity|]. intros fuel rest L.
  assert (Hlen : zlen (elements (root t)) <= 32767) by (unfold entries in Hn; rewrite map_length in Hn; exact Hn).
  pose proof (map_reads w (zlen (elements (root t))) ltac:(lia)) as R.
  rewrite !app_length in L. pose proof (head_nonempty 6 (reg 20)) as N. unfold enc_tag in L.
  destruct fuel as [|fuel]; [lia|]. cbn [read].
  replace ((wrap_tag w ++ enc_tag (reg 20) ++ head 5 (zlen (elements (root t))) ++ bs) ++ rest)
    with ((wrap_tag w ++ enc_tag (reg 20) ++ head 5 (zlen (elements (root t)))) ++ bs ++ rest) by (rewrite <- !app_assoc; reflexivity).
  rewrite (reads_next _ _ _ _ R). cbv beta iota zeta. cbn [hd tl]. change (reg 20 =? reg 20) with true. cbv iota.
  rewrite Nat2Z.id, (Rb fuel np_tree_create rest t' ltac:(lia) Ec). rewrite Ee. destruct w; cbn [hd]; eqbs; reflexivity.
Qed.
