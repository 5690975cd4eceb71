(** Data blocks: proofs. *)
From Verif Require Import Base Cbor_Model Cbor_Proofs Treeval_Model Data_Model Data_Spec.

(** *** Header *)
Lemma header_length h : 0 <= h_total h < 4294967296 -> 0 <= h_used h < 4294967296 -> 0 <= h_count h < 4294967296 ->
  length (header_bytes h) = overhead.
Proof. intros. unfold header_bytes. rewrite !app_length, !head4_length by lia. reflexivity. Qed.

Lemma u32_reads x rest : 0 <= x < 4294967296 -> get_u32 (head4 0 x ++ rest) = Some (x, rest).
Proof.
  intros. unfold get_u32. rewrite (reads_next _ _ _ _ (reads_word x H)).
  destruct (Z.leb_spec 0 x); [|lia]. destruct (Z.leb_spec x 4294967295); [reflexivity|lia].
Qed.

Definition hdr_ok (h : hdr) := 0 <= h_total h < 4294967296 /\ 0 <= h_used h < 4294967296 /\ 0 <= h_count h < 4294967296.

Lemma read_header_ok h x : hdr_ok h -> read_header (header_bytes h ++ x) = (np_data_ok, h).
Proof.
  intros (A & B & C). unfold read_header. rewrite firstn_app, (header_length h) by assumption.
  rewrite Nat.sub_diag, firstn_O, app_nil_r, <- (header_length h) by assumption. rewrite firstn_all.
  unfold header_bytes. rewrite (reads_next _ _ _ _ (reads_array 4 ltac:(lia))). change (4 =? 4) with true. cbv iota.
  change (head 0 NP_DATA_MAGIC_NO) with (head4 0 NP_DATA_MAGIC_NO).
  rewrite u32_reads by (unfold NP_DATA_MAGIC_NO; lia). rewrite Z.eqb_refl.
  rewrite !u32_reads by assumption. rewrite <- (app_nil_r (head4 0 (h_count h))), u32_reads by assumption. destruct h; reflexivity.
Qed.

(** *** Objects *)
Lemma until_zero_id s : Forall (fun c => 1 <= c <= 255) s -> until_zero s = s.
Proof.
  induction 1 as [|c s H _ IH]; [reflexivity|]. cbn [until_zero]. destruct (Z.eqb_spec c 0); [lia|]. rewrite IH. reflexivity.
Qed.

Lemma encode_text k v : encode k v = enc_text k ++ concat (match v with
  | DBin b => [head 2 (Z.of_nat (length b)); b]
  | DStr s => [head 3 (Z.of_nat (length s)); s]
  | DInt z => [enc_tag (reg 3); enc_int z]
  | DUint z => [enc_tag (reg 12); enc_int z]
  end).
Proof. unfold encode, pieces, enc_text. cbn [app concat]. rewrite <- app_assoc. reflexivity. Qed.

Lemma read_object_ok k v rest : good_key k -> good_value v ->
  read_object (encode k v ++ rest) = Done (np_data_ok, Some (k, v, length (encode k v))).
Proof.
  intros (K1 & K2 & K3) V. rewrite encode_text. unfold read_object. rewrite <- app_assoc.
  rewrite (reads_next _ _ _ _ (reads_text k ltac:(lia))). cbv iota beta.
  destruct (Nat.ltb_spec 254 (length k)); [lia|]. rewrite until_zero_id by exact K3. cbv zeta.
  destruct v as [b|z|z|b]; cbn [concat]; rewrite app_nil_r; cbn [good_value] in V.
  - change (head 2 (Z.of_nat (length b)) ++ b) with (enc_bytes b).
    rewrite (reads_next _ _ _ _ (reads_bytes b ltac:(lia))). cbv iota beta. repeat f_equal. rewrite !app_length. lia.
  - rewrite (reads_next _ _ _ _ (reads_tag (reg 3) _ _ _ ltac:(unfold reg; lia) (reads_int z ltac:(lia)))). cbv iota beta.
    cbn [app hd]. rewrite Z.eqb_refl. destruct (Z.leb_spec (-2147483648) z); [|lia].
    destruct (Z.leb_spec z 2147483647); [|lia]. cbn [andb]. repeat f_equal. rewrite !app_length. lia.
  - rewrite (reads_next _ _ _ _ (reads_tag (reg 12) _ _ _ ltac:(unfold reg; lia) (reads_int z ltac:(lia)))). cbv iota beta.
    cbn [app hd]. change (reg 12 =? reg 3) with false. cbv iota. rewrite Z.eqb_refl. destruct (Z.leb_spec 0 z); [|lia].
    destruct (Z.leb_spec z 4294967295); [|lia]. cbn [andb]. repeat f_equal. rewrite !app_length. lia.
  - change (head 3 (Z.of_nat (length b)) ++ b) with (enc_text b).
    rewrite (reads_next _ _ _ _ (reads_text b ltac:(lia))). cbv iota beta. repeat f_equal. rewrite !app_length. lia.
Qed.

Definition arg_bytes (a : Z) : Z := if a <? 24 then 0 else if a <? 256 then 1 else if a <? 65536 then 2 else if a <? 4294967296 then 4 else 8.
Lemma head_len m a : 0 <= a -> Z.of_nat (length (head m a)) = 1 + arg_bytes a.
Proof. apply head_length. Qed.
Lemma enc_int_len z : Z.of_nat (length (enc_int z)) = 1 + arg_bytes (if z <? 0 then -1 - z else z).
Proof. unfold enc_int. destruct (Z.ltb_spec z 0); apply head_len; lia. Qed.
Lemma reg_len ty : 0 <= ty <= 64 -> Z.of_nat (length (enc_tag (reg ty))) = 3.
Proof. intros. unfold enc_tag. rewrite head_len by (unfold reg; lia). unfold arg_bytes, reg. destruct (Z.ltb_spec (31415 + ty) 24), (Z.ltb_spec (31415 + ty) 256), (Z.ltb_spec (31415 + ty) 65536); lia. Qed.

Lemma encode_size k v : Z.of_nat (length (encode k v)) = 1 + arg_bytes (Z.of_nat (length k)) + Z.of_nat (length k) +
  match v with
  | DBin b | DStr b => 1 + arg_bytes (Z.of_nat (length b)) + Z.of_nat (length b)
  | DInt z | DUint z => 4 + arg_bytes (if z <? 0 then -1 - z else z)
  end.
Proof.
  rewrite encode_text, app_length, Nat2Z.inj_add. unfold enc_text. rewrite app_length, Nat2Z.inj_add, head_len by lia.
  destruct v as [b|z|z|b]; cbn [concat]; rewrite app_nil_r, app_length, Nat2Z.inj_add;
    rewrite ?head_len, ?reg_len, ?enc_int_len by lia; lia.
Qed.

Ltac sizes := unfold arg_bytes, int_extra, size_extra in *;
  repeat match goal with
         | |- context [?a <? ?b] => destruct (Z.ltb_spec a b)
         | |- context [?a >? ?b] => destruct (Z.gtb_spec a b)
         end; lia.

Lemma size_exact k v : good_key k -> good_value v -> object_size k v = Z.of_nat (length (encode k v)).
Proof.
  intros (K1 & K2 & _) V. rewrite encode_size. unfold object_size.
  assert (A : arg_bytes (Z.of_nat (length k)) = if Z.of_nat (length k) >? 24 then 1 else 0) by sizes.
  rewrite A. destruct v as [b|z|z|b]; cbn [good_value] in V.
  - assert (B : arg_bytes (Z.of_nat (length b)) = size_extra (Z.of_nat (length b))) by sizes. lia.
  - assert (B : arg_bytes (if z <? 0 then -1 - z else z) = int_extra (if z >? 0 then z else - z)).
    { destruct (Z.ltb_spec z 0), (Z.gtb_spec z 0); try lia; sizes. }
    lia.
  - assert (B : arg_bytes (if z <? 0 then -1 - z else z) = int_extra z).
    { destruct (Z.ltb_spec z 0); [lia|]. sizes. }
    lia.
  - assert (B : arg_bytes (Z.of_nat (length b)) = size_extra (Z.of_nat (length b))) by sizes. lia.
Qed.

Lemma fit_all ps : forall room, room = length (concat ps) -> fit room ps = (concat ps, true).
Proof.
  induction ps as [|p ps IH]; intros room E; [reflexivity|]. cbn [fit concat] in *. rewrite app_length in E.
  destruct (Nat.leb_spec (length p) room); [|lia]. rewrite IH by lia. reflexivity.
Qed.
Lemma fit_fails ps : forall room, (room < length (concat ps))%nat -> exists w, fit room ps = (w, false) /\ (length w <= room)%nat.
Proof.
  induction ps as [|p ps IH]; intros room E; cbn [fit concat] in *; [cbn in E; lia|]. rewrite app_length in E.
  destruct (Nat.leb_spec (length p) room).
  - destruct (IH (room - length p)%nat) as (w & -> & L); [lia|]. exists (p ++ w). split; [reflexivity|]. rewrite app_length. lia.
  - exists []. split; [reflexivity|]. cbn. lia.
Qed.

(** *** Patching *)
Lemma patch_mid a x y c : length x = length y -> patch (a ++ x ++ c) (length a) y = a ++ y ++ c.
Proof.
  intros E. unfold patch. rewrite firstn_app, Nat.sub_diag, firstn_all, firstn_O, app_nil_r.
  do 2 f_equal. rewrite skipn_app. rewrite skipn_all2 by lia. replace (length a + length y - length a)%nat with (length x) by lia.
  rewrite skipn_app, skipn_all, Nat.sub_diag. reflexivity.
Qed.
Lemma patch_length b off y : (off + length y <= length b)%nat -> length (patch b off y) = length b.
Proof. intros. unfold patch. rewrite !app_length, firstn_length, skipn_length. lia. Qed.
Lemma skipn_exact {A} (a c : list A) : skipn (length a) (a ++ c) = c.
Proof. rewrite skipn_app, skipn_all, Nat.sub_diag. reflexivity. Qed.
Lemma firstn_exact {A} (a c : list A) : firstn (length a) (a ++ c) = a.
Proof. rewrite firstn_app, firstn_all, Nat.sub_diag, firstn_O, app_nil_r. reflexivity. Qed.
Lemma skipn_twice {A} x y (c : list A) : skipn x (skipn y c) = skipn (x + y) c.
Proof. revert c. induction y as [|y IH]; intros c; [rewrite Nat.add_0_r; reflexivity|]. rewrite Nat.add_succ_r. destruct c; cbn [skipn]; [apply skipn_nil|apply IH]. Qed.
Lemma patch_at a c y : (length y <= length c)%nat -> patch (a ++ c) (length a) y = a ++ y ++ skipn (length y) c.
Proof.
  intros. rewrite <- (firstn_skipn (length y) c) at 1. apply patch_mid. rewrite firstn_length. lia.
Qed.

(** *** The stored entries *)
Definition flat (l : store) : list Z := flat_map (fun e => encode (fst e) (snd e)) l.
Lemma flat_app a b : flat (a ++ b) = flat a ++ flat b.
Proof. apply flat_map_app. Qed.
Lemma flat_cons k v l : flat ((k, v) :: l) = encode k v ++ flat l.
Proof. reflexivity. Qed.
Lemma flat_one k v : flat [(k, v)] = encode k v.
Proof. rewrite flat_cons. apply app_nil_r. Qed.
Lemma needed_flat l : bytes_needed l = 21 + Z.of_nat (length (flat l)).
Proof.
  unfold bytes_needed, flat. f_equal. induction l as [|e l IH]; [reflexivity|]. cbn [fold_right flat_map]. rewrite app_length. lia.
Qed.

Lemma same_spec a b : same a b = true <-> a = b.
Proof. unfold same. destruct (list_eq_dec Z.eq_dec a b); split; congruence. Qed.

Lemma search_found l : Forall good_entry l -> forall many key pre,
  match lookup key l with
  | Some v => exists l1 l2, l = l1 ++ (key, v) :: l2 /\ lookup key l1 = None /\
      search_from (length l) many key (length pre) (pre ++ flat l) =
        Done (Some (length pre + length (flat l1), length pre + length (flat l1) + length (encode key v), key, v)%nat)
  | None => search_from (length l) many key (length pre) (pre ++ flat l) = if many then Hangs else Done None
  end.
Proof.
  induction 1 as [|[k w] l [Gk Gw] Gl IH]; intros many key pre; [reflexivity|].
  cbn [lookup length search_from fst snd] in *.
  assert (E : skipn (length pre) (pre ++ flat ((k, w) :: l)) = encode k w ++ flat l).
  { rewrite skipn_app, skipn_all, Nat.sub_diag. reflexivity. }
  rewrite E, read_object_ok by assumption. cbn [rbind].
  destruct (list_eq_dec Z.eq_dec k key) as [->|N].
  - exists [], l. split; [reflexivity|]. split; [reflexivity|]. rewrite (proj2 (same_spec key key) eq_refl).
    cbn [flat flat_map length]. rewrite Nat.add_0_r. reflexivity.
  - destruct (same k key) eqn:Es; [apply same_spec in Es; contradiction|].
    specialize (IH many key (pre ++ encode k w)). rewrite app_length, <- app_assoc in IH.
    change (pre ++ flat ((k, w) :: l)) with (pre ++ encode k w ++ flat l).
    destruct (lookup key l) as [v|].
    + destruct IH as (l1 & l2 & -> & Hn & Hs). exists ((k, w) :: l1), l2. split; [reflexivity|]. split.
      * cbn [lookup]. destruct (list_eq_dec Z.eq_dec k key); [contradiction|exact Hn].
      * rewrite Hs. replace (length (flat ((k, w) :: l1))) with (length (encode k w) + length (flat l1))%nat
          by (unfold flat; cbn [flat_map fst snd]; rewrite app_length; reflexivity).
        rewrite !Nat.add_assoc. reflexivity.
    + exact IH.
Qed.

Record Inv (n : Z) (l : store) (b : list Z) : Prop := {
  inv_bytes : exists rest, b = header_bytes (mkHdr n (bytes_needed l) (Z.of_nat (length l))) ++ flat l ++ rest;
  inv_mem : n <= Z.of_nat (length b);
  inv_range : n < 4294967296;
  inv_fits : bytes_needed l <= n;
  inv_keys : NoDup (map fst l);
  inv_good : Forall good_entry l;
  inv_few : Z.of_nat (length l) <= 65535 }.

Lemma needed_pos l : 21 <= bytes_needed l.
Proof. rewrite needed_flat. lia. Qed.

Lemma inv_hdr n l b : Inv n l b -> hdr_ok (mkHdr n (bytes_needed l) (Z.of_nat (length l))) /\ (overhead <= length b)%nat.
Proof.
  intros I. pose proof (needed_pos l). pose proof (inv_range _ _ _ I). pose proof (inv_fits _ _ _ I). pose proof (inv_mem _ _ _ I).
  pose proof (inv_few _ _ _ I). unfold hdr_ok, overhead. cbn [h_total h_used h_count]. lia.
Qed.

Lemma inv_header n l b : Inv n l b -> read_header b = (np_data_ok, mkHdr n (bytes_needed l) (Z.of_nat (length l))).
Proof.
  intros I. destruct (inv_hdr n l b I) as [H _]. destruct (inv_bytes _ _ _ I) as [rest ->]. apply read_header_ok. exact H.
Qed.

Lemma area n l b rest : Inv n l b -> b = header_bytes (mkHdr n (bytes_needed l) (Z.of_nat (length l))) ++ flat l ++ rest ->
  firstn (Z.to_nat (bytes_needed l)) b = header_bytes (mkHdr n (bytes_needed l) (Z.of_nat (length l))) ++ flat l.
Proof.
  intros I E. destruct (inv_hdr n l b I) as [(A & B & C) _]. rewrite E at 1. set (H := header_bytes _).
  assert (L : length H = overhead) by (apply header_length; assumption).
  rewrite app_assoc. rewrite firstn_app.
  replace (Z.to_nat (bytes_needed l)) with (length (H ++ flat l)) by (rewrite app_length, L, needed_flat; unfold overhead; lia).
  rewrite firstn_all, Nat.sub_diag, firstn_O, app_nil_r. reflexivity.
Qed.

Lemma search_inv n l b key : Inv n l b ->
  match lookup key l with
  | Some v => exists l1 l2, l = l1 ++ (key, v) :: l2 /\ lookup key l1 = None /\
      search_object b key = Done (Some (overhead + length (flat l1), overhead + length (flat l1) + length (encode key v), key, v)%nat)
  | None => search_object b key = Done None
  end.
Proof.
  intros I. destruct (inv_hdr n l b I) as [(A & B & C) M]. destruct (inv_bytes _ _ _ I) as [rest E].
  unfold search_object. destruct (Nat.ltb_spec (length b) overhead); [lia|]. rewrite (inv_header n l b I). cbn [snd h_used h_count].
  pose proof (inv_mem _ _ _ I). pose proof (inv_fits _ _ _ I). pose proof (needed_pos l). pose proof (inv_few _ _ _ I).
  destruct (Z.gtb_spec (bytes_needed l) (Z.of_nat (length b))); [lia|]. cbn [orb].
  destruct (Z.ltb_spec (bytes_needed l) (Z.of_nat overhead)); [unfold overhead in *; lia|]. rewrite andb_false_r.
  destruct (Z.gtb_spec (Z.of_nat (length l)) 65535); [lia|]. rewrite Nat2Z.id, (area n l b rest I E).
  set (H' := header_bytes _) in *. assert (L : length H' = overhead) by (apply header_length; assumption).
  rewrite <- L. pose proof (search_found l (inv_good _ _ _ I) false key H') as S.
  destruct (lookup key l); exact S.
Qed.

Lemma put_new k v l : lookup k l = None -> put k v l = l ++ [(k, v)].
Proof.
  induction l as [|[k' v'] l IH]; intros H; [reflexivity|]. cbn [lookup put] in *.
  destruct (list_eq_dec Z.eq_dec k' k); [discriminate|]. rewrite IH by exact H. reflexivity.
Qed.
Lemma put_old k v w l1 l2 : lookup k l1 = None -> put k v (l1 ++ (k, w) :: l2) = l1 ++ (k, v) :: l2.
Proof.
  induction l1 as [|[k' v'] l IH]; intros H; cbn [lookup put app] in *.
  - destruct (list_eq_dec Z.eq_dec k k); [reflexivity|contradiction].
  - destruct (list_eq_dec Z.eq_dec k' k); [discriminate|]. rewrite IH by exact H. reflexivity.
Qed.
Lemma lookup_none k l : lookup k l = None <-> ~ In k (map fst l).
Proof.
  induction l as [|[k' v'] l IH]; cbn [lookup map fst In]; [tauto|].
  destruct (list_eq_dec Z.eq_dec k' k) as [E|N].
  - split; [discriminate|]. intros H. exfalso. apply H. left. exact E.
  - rewrite IH. split; [intros H [C|C]; tauto|tauto].
Qed.
Lemma lookup_put k v l k' : lookup k' (put k v l) = if list_eq_dec Z.eq_dec k k' then Some v else lookup k' l.
Proof.
  induction l as [|[q w] l IH]; cbn [put lookup]; [reflexivity|].
  destruct (list_eq_dec Z.eq_dec q k) as [->|N]; cbn [lookup].
  - destruct (list_eq_dec Z.eq_dec k k'); reflexivity.
  - rewrite IH. destruct (list_eq_dec Z.eq_dec q k') as [->|]; [|reflexivity].
    destruct (list_eq_dec Z.eq_dec k k'); [congruence|reflexivity].
Qed.
Lemma put_keys k v l : NoDup (map fst l) -> NoDup (map fst (put k v l)).
Proof.
  intros N. destruct (lookup k l) as [w|] eqn:E.
  - assert (map fst (put k v l) = map fst l) as ->; [|exact N]. clear N. revert E. induction l as [|[q x] l IH]; [discriminate|].
    cbn [lookup put]. destruct (list_eq_dec Z.eq_dec q k) as [->|]; [reflexivity|]. intros E. cbn [map fst]. rewrite IH by exact E. reflexivity.
  - rewrite put_new by exact E. rewrite map_app. cbn. apply lookup_none in E.
    apply (Permutation_NoDup (Permutation_cons_append _ _)). constructor; assumption.
Qed.
Lemma put_good k v l : good_key k -> good_value v -> Forall good_entry l -> Forall good_entry (put k v l).
Proof.
  intros Gk Gv. induction 1 as [|[q x] l G Gl IH]; cbn [put]; [constructor; [split; assumption|constructor]|].
  destruct (list_eq_dec Z.eq_dec q k); constructor; auto. split; assumption.
Qed.

Lemma to_nat_len (a : Z) : 0 <= a -> Z.of_nat (Z.to_nat a) = a.
Proof. lia. Qed.

Lemma write_header_ok h0 H x h : length H = overhead -> hdr_ok h -> h_total h = h_total h0 -> 21 <= h_total h -> 21 <= h_used h ->
  write_header (H ++ x) h = (np_data_ok, header_bytes h ++ x).
Proof.
  intros L O _ T U. unfold write_header. destruct (Z.eqb_spec (h_used h) 0); [lia|].
  destruct (Z.ltb_spec (h_total h) (Z.of_nat overhead)); [unfold overhead in *; lia|]. f_equal.
  destruct O as (A & B & C). apply (patch_mid [] H (header_bytes h) x). rewrite header_length by assumption. exact L.
Qed.

(** A write in a reachable block *)
Lemma set_step n l b k v : Inv n l b -> good_key k -> good_value v -> Z.of_nat (length (put k v l)) <= 65535 ->
  (bytes_needed (put k v l) <= n -> exists b', np_set_data b k v = Done (np_data_ok, b') /\ Inv n (put k v l) b' /\
     length b' = length b /\ skipn (Z.to_nat n) b' = skipn (Z.to_nat n) b) /\
  (n < bytes_needed (put k v l) -> np_set_data b k v = Done (np_insufficient_memory, b)).
Proof.
  intros I Gk Gv Few. destruct (inv_hdr n l b I) as [(A & B & C) M]. destruct (inv_bytes _ _ _ I) as [rest E].
  cbn [h_total h_used h_count] in A, B, C.
  pose proof (inv_mem _ _ _ I) as Mem. pose proof (inv_range _ _ _ I) as Rg. pose proof (inv_fits _ _ _ I) as Ft. pose proof (needed_pos l) as P.
  set (H := header_bytes (mkHdr n (bytes_needed l) (Z.of_nat (length l)))) in *.
  assert (L : length H = overhead) by (apply header_length; assumption).
  unfold np_set_data. destruct (Nat.ltb_spec (length b) overhead); [lia|].
  destruct (Nat.ltb_spec 254 (length k)); [destruct Gk; lia|]. rewrite (inv_header n l b I).
  pose proof (search_inv n l b k I) as Sr. destruct (lookup k l) as [w|] eqn:Lk.
  - (* the key is present *)
    destruct Sr as (l1 & l2 & El & N1 & Sr). rewrite Sr. cbn [rbind h_total h_used h_count].
    assert (Gw : good_value w).
    { pose proof (inv_good _ _ _ I) as G. rewrite El in G. apply Forall_app in G. destruct G as [_ G]. inversion G as [|? ? [_ Gw] _]. exact Gw. }
    rewrite !size_exact by assumption. rewrite El, put_old by exact N1. rewrite El in E, Ft, B, C, P, Few. rewrite put_old in Few by exact N1.
    set (e := encode k v) in *. set (o := encode k w) in *.
    assert (Nl : bytes_needed (l1 ++ (k, w) :: l2) = 21 + Z.of_nat (length (flat l1) + length o + length (flat l2))).
    { rewrite needed_flat, flat_app, flat_cons, !app_length. fold o. lia. }
    assert (Nn : bytes_needed (l1 ++ (k, v) :: l2) = 21 + Z.of_nat (length (flat l1) + length e + length (flat l2))).
    { rewrite needed_flat, flat_app, flat_cons, !app_length. fold e. lia. }
    rewrite Nl. split; [intros Fit|intros Big].
    2:{ destruct (Z.gtb_spec (Z.of_nat (length e)) (n - (21 + Z.of_nat (length (flat l1) + length o + length (flat l2))) + Z.of_nat (length o))); [reflexivity|lia]. }
    destruct (Z.gtb_spec (Z.of_nat (length e)) (n - (21 + Z.of_nat (length (flat l1) + length o + length (flat l2))) + Z.of_nat (length o))); [lia|].
    cbv beta iota. rewrite Nat2Z.id, fit_all by reflexivity. change (concat (pieces k v)) with e. cbv beta iota.
    set (f1 := flat l1) in *. set (f2 := flat l2) in *.
    assert (E' : b = H ++ f1 ++ o ++ f2 ++ rest).
    { rewrite E at 1. rewrite flat_app, flat_cons. rewrite <- !app_assoc. reflexivity. }
    assert (Eb : length b = (21 + length f1 + length o + length f2 + length rest)%nat).
    { rewrite E'. rewrite !app_length, L. unfold overhead. lia. }
    assert (Emv : firstn (Z.to_nat (21 + Z.of_nat (length f1 + length o + length f2)) - (overhead + length f1 + length o))
                    (skipn (overhead + length f1 + length o) b) = f2).
    { replace (overhead + length f1 + length o)%nat with (length (H ++ f1 ++ o)) at 2 by (rewrite !app_length, L; lia).
      replace b with ((H ++ f1 ++ o) ++ f2 ++ rest) by (rewrite E', <- !app_assoc; reflexivity). rewrite skipn_exact.
      replace (Z.to_nat _ - _)%nat with (length f2) by (unfold overhead; lia). apply firstn_exact. }
    rewrite Emv.
    replace (Z.to_nat (Z.of_nat (overhead + length f1 + length o) + (Z.of_nat (length e) - Z.of_nat (length o))))
      with (overhead + length f1 + length e)%nat by lia.
    set (s := (overhead + length f1)%nat).
    assert (R : exists rest', patch (patch b (s + length e) f2) s e = H ++ f1 ++ e ++ f2 ++ rest' /\
               skipn (Z.to_nat n) (H ++ f1 ++ e ++ f2 ++ rest') = skipn (Z.to_nat n) b /\ length (H ++ f1 ++ e ++ f2 ++ rest') = length b).
    { exists (skipn (s + length e + length f2) b).
      assert (Es : firstn s b = H ++ f1).
      { rewrite E', app_assoc, firstn_app. replace s with (length (H ++ f1)) by (rewrite app_length, L; reflexivity).
        rewrite firstn_all, Nat.sub_diag, firstn_O, app_nil_r. reflexivity. }
      assert (Le : length (firstn (s + length e) b) = (s + length e)%nat) by (rewrite firstn_length; unfold s, overhead in *; lia).
      split; [|split].
      - unfold patch at 1. replace (firstn s (patch b (s + length e) f2)) with (H ++ f1).
        + rewrite <- app_assoc. do 3 f_equal. unfold patch. rewrite skipn_app, Le, Nat.sub_diag.
          rewrite skipn_all2 by lia. reflexivity.
        + unfold patch. rewrite firstn_app. rewrite firstn_firstn. replace (Init.Nat.min s (s + length e)) with s by lia.
          rewrite Le. replace (s - (s + length e))%nat with 0%nat by lia. rewrite firstn_O, app_nil_r. symmetry. exact Es.
      - replace (H ++ f1 ++ e ++ f2 ++ skipn (s + length e + length f2) b) with ((H ++ f1 ++ e ++ f2) ++ skipn (s + length e + length f2) b)
          by (rewrite <- !app_assoc; reflexivity).
        assert (Lx : length (H ++ f1 ++ e ++ f2) = (s + length e + length f2)%nat) by (rewrite !app_length, L; unfold s; lia).
        rewrite skipn_app, Lx. rewrite skipn_all2 by (rewrite Lx; unfold s, overhead; lia). cbn [app].
        rewrite skipn_twice. f_equal. unfold s, overhead. lia.
      - rewrite !app_length, L, skipn_length. unfold s, overhead in *. lia. }
    destruct R as (rest' & Er & Esk & Ele). fold s. rewrite Er, Ele, Nat.eqb_refl, Z.eqb_refl. cbn [negb].
    set (h' := mkHdr n _ _).
    assert (Eh : h' = mkHdr n (bytes_needed (l1 ++ (k, v) :: l2)) (Z.of_nat (length (l1 ++ (k, v) :: l2)))).
    { unfold h'. rewrite Nn. rewrite !app_length in *. cbn [length] in *. f_equal; [lia|].
      assert (Zu : u32 (Z.of_nat (length l1 + S (length l2)) - 1) = Z.of_nat (length l1 + length l2)).
      { unfold u32. rewrite Z.mod_small; lia. }
      rewrite Zu. unfold u32. rewrite Z.mod_small; lia. }
    assert (Ho : hdr_ok h').
    { rewrite Eh. unfold hdr_ok. cbn [h_total h_used h_count]. rewrite Nn in *. lia. }
    rewrite (write_header_ok h' H _ h' L Ho eq_refl); [|rewrite Eh; cbn [h_total]; lia|rewrite Eh; cbn [h_used]; rewrite Nn; lia].
    exists (header_bytes h' ++ f1 ++ e ++ f2 ++ rest'). split; [reflexivity|].
    assert (Lh : length (header_bytes h') = overhead) by (destruct Ho as (? & ? & ?); apply header_length; assumption).
    assert (Lb : length (header_bytes h' ++ f1 ++ e ++ f2 ++ rest') = length b).
    { rewrite <- Ele. rewrite !app_length, Lh, L. reflexivity. }
    split; [|split; [exact Lb|]].
    + constructor.
      * exists rest'. rewrite Eh, flat_app, flat_cons, <- !app_assoc. reflexivity.
      * rewrite Lb. exact Mem.
      * exact Rg.
      * exact Fit.
      * pose proof (put_keys k v l (inv_keys _ _ _ I)) as Nd. rewrite El, put_old in Nd by exact N1. exact Nd.
      * pose proof (put_good k v l Gk Gv (inv_good _ _ _ I)) as Gd. rewrite El, put_old in Gd by exact N1. exact Gd.
      * exact Few.
    + rewrite <- Esk. rewrite !skipn_app. rewrite Lh, L. rewrite (skipn_all2 (header_bytes h')) by (rewrite Lh; unfold overhead; lia).
      rewrite (skipn_all2 H) by (rewrite L; unfold overhead; lia). reflexivity.
  - (* a new key *)
    rewrite Sr. cbn [rbind h_total h_used h_count].
    rewrite !size_exact by assumption. rewrite put_new in * by exact Lk. set (e := encode k v) in *.
    assert (Nn : bytes_needed (l ++ [(k, v)]) = bytes_needed l + Z.of_nat (length e)).
    { rewrite !needed_flat, flat_app, app_length, flat_one. fold e. lia. }
    rewrite Nn. split; [intros Fit|intros Big].
    2:{ destruct (Z.gtb_spec (Z.of_nat (length e)) (n - bytes_needed l + 0)); [reflexivity|lia]. }
    destruct (Z.gtb_spec (Z.of_nat (length e)) (n - bytes_needed l + 0)); [lia|]. cbv beta iota.
    rewrite Nat2Z.id, fit_all by reflexivity. change (concat (pieces k v)) with e. cbv beta iota.
    assert (Eb : length b = (21 + length (flat l) + length rest)%nat).
    { rewrite E, !app_length, L. unfold overhead. lia. }
    rewrite (needed_flat l) in *.
    assert (Le : (length e <= length rest)%nat) by lia.
    assert (Ep : patch b (Z.to_nat (21 + Z.of_nat (length (flat l)))) e = H ++ flat l ++ e ++ skipn (length e) rest).
    { rewrite E at 1. rewrite app_assoc. replace (Z.to_nat _) with (length (H ++ flat l)) by (rewrite app_length, L; unfold overhead; lia).
      rewrite patch_at by exact Le. rewrite <- app_assoc. reflexivity. }
    rewrite Ep.
    assert (Lp : length (H ++ flat l ++ e ++ skipn (length e) rest) = length b).
    { rewrite !app_length, L, skipn_length. unfold overhead. lia. }
    rewrite Lp, Nat.eqb_refl, Z.eqb_refl. cbn [negb]. set (h' := mkHdr n _ _).
    assert (Eh : h' = mkHdr n (bytes_needed (l ++ [(k, v)])) (Z.of_nat (length (l ++ [(k, v)])))).
    { unfold h'. rewrite needed_flat, flat_app, !app_length, flat_one. cbn [length]. fold e.
      f_equal; [lia|]. rewrite app_length in Few. cbn [length] in Few. unfold u32. rewrite Z.mod_small; lia. }
    assert (Ho : hdr_ok h').
    { rewrite Eh. unfold hdr_ok. cbn [h_total h_used h_count]. rewrite Nn. lia. }
    rewrite (write_header_ok h' H _ h' L Ho eq_refl); [|rewrite Eh; cbn [h_total]; lia|rewrite Eh; cbn [h_used]; rewrite Nn; lia].
    exists (header_bytes h' ++ flat l ++ e ++ skipn (length e) rest). split; [reflexivity|].
    assert (Lh : length (header_bytes h') = overhead) by (destruct Ho as (? & ? & ?); apply header_length; assumption).
    assert (Lb : length (header_bytes h' ++ flat l ++ e ++ skipn (length e) rest) = length b).
    { rewrite <- Lp. rewrite !app_length, Lh, L. reflexivity. }
    split; [|split; [exact Lb|]].
    + constructor.
      * exists (skipn (length e) rest). rewrite Eh, flat_app, flat_one, <- !app_assoc. reflexivity.
      * rewrite Lb. exact Mem.
      * exact Rg.
      * rewrite Nn. exact Fit.
      * pose proof (put_keys k v l (inv_keys _ _ _ I)) as Nd. rewrite put_new in Nd by exact Lk. exact Nd.
      * pose proof (put_good k v l Gk Gv (inv_good _ _ _ I)) as Gd. rewrite put_new in Gd by exact Lk. exact Gd.
      * exact Few.
    + rewrite E. rewrite !skipn_app, Lh, L. rewrite (skipn_all2 (header_bytes h')) by (rewrite Lh; unfold overhead; lia).
      rewrite (skipn_all2 H) by (rewrite L; unfold overhead; lia). cbn [app]. f_equal.
      rewrite (skipn_all2 e) by (unfold overhead; lia). cbn [app]. rewrite skipn_twice. f_equal. unfold overhead. lia.
Qed.

(** A new key whose size comes out too small: nothing is stored *)
Lemma set_fails n l b k v : Inv n l b -> lookup k l = None -> (length k <= 254)%nat -> 0 <= object_size k v ->
  object_size k v < Z.of_nat (length (encode k v)) -> bytes_needed l + object_size k v <= n ->
  exists b', np_set_data b k v = Done (np_could_not_write_total_length, b') /\ Inv n l b' /\ length b' = length b /\
    skipn (Z.to_nat n) b' = skipn (Z.to_nat n) b.
Proof.
  intros I Lk Lk' Pos Small Room. destruct (inv_hdr n l b I) as [(A & B & C) M]. destruct (inv_bytes _ _ _ I) as [rest E].
  cbn [h_total h_used h_count] in A, B, C.
  pose proof (inv_mem _ _ _ I) as Mem. pose proof (inv_fits _ _ _ I) as Ft. pose proof (needed_pos l) as P.
  set (H := header_bytes (mkHdr n (bytes_needed l) (Z.of_nat (length l)))) in *.
  assert (L : length H = overhead) by (apply header_length; assumption).
  unfold np_set_data. destruct (Nat.ltb_spec (length b) overhead); [lia|].
  destruct (Nat.ltb_spec 254 (length k)); [lia|]. rewrite (inv_header n l b I).
  pose proof (search_inv n l b k I) as Sr. rewrite Lk in Sr. rewrite Sr. cbn [rbind h_total h_used h_count].
  destruct (Z.gtb_spec (object_size k v) (n - bytes_needed l + 0)); [lia|]. cbv beta iota.
  destruct (fit_fails (pieces k v) (Z.to_nat (object_size k v))) as (w & Ef & Lw).
  { change (concat (pieces k v)) with (encode k v). lia. }
  rewrite Ef. cbv beta iota. rewrite (needed_flat l) in *.
  assert (Eb : length b = (21 + length (flat l) + length rest)%nat) by (rewrite E, !app_length, L; unfold overhead; lia).
  assert (Ep : patch b (Z.to_nat (21 + Z.of_nat (length (flat l)))) w = H ++ flat l ++ w ++ skipn (length w) rest).
  { rewrite E at 1. rewrite app_assoc. replace (Z.to_nat _) with (length (H ++ flat l)) by (rewrite app_length, L; unfold overhead; lia).
    rewrite patch_at by lia. rewrite <- app_assoc. reflexivity. }
  rewrite Ep. assert (Lp : length (H ++ flat l ++ w ++ skipn (length w) rest) = length b).
  { rewrite !app_length, L, skipn_length. unfold overhead. lia. }
  rewrite Lp, Nat.eqb_refl. cbn [negb]. eexists. split; [reflexivity|]. split; [|split; [exact Lp|]].
  - constructor; try apply I; [eexists; unfold H; reflexivity|rewrite Lp; exact Mem].
  - rewrite E. rewrite !skipn_app, L. cbn [app]. do 2 f_equal.
    rewrite (skipn_all2 w) by (unfold overhead; lia). cbn [app]. rewrite skipn_twice. f_equal. unfold overhead. lia.
Qed.

Lemma init_step b0 n : 21 <= n < 4294967296 -> n <= Z.of_nat (length b0) ->
  exists b, np_init_datablock b0 n = Done (np_data_ok, b) /\ Inv n [] b /\ length b = length b0 /\ skipn (Z.to_nat n) b = skipn (Z.to_nat n) b0.
Proof.
  intros R M. unfold np_init_datablock. destruct (Z.gtb_spec n (Z.of_nat (length b0))); [lia|].
  unfold write_header. cbn [h_used h_total h_count]. change (0 =? 0) with true. cbv beta iota zeta. cbn [h_total].
  destruct (Z.ltb_spec n (Z.of_nat overhead)); [unfold overhead in *; lia|].
  set (z := repeat 0 (Z.to_nat n)). set (h := mkHdr n (Z.of_nat overhead) 0).
  assert (Lz : length z = Z.to_nat n) by apply repeat_length.
  assert (Ho : hdr_ok h) by (unfold hdr_ok, h, overhead; cbn [h_total h_used h_count]; lia).
  assert (Lh : length (header_bytes h) = overhead) by (destruct Ho as (? & ? & ?); apply header_length; assumption).
  assert (E1 : patch b0 0 z = z ++ skipn (Z.to_nat n) b0) by (unfold patch; rewrite Lz; reflexivity).
  assert (E2 : patch (patch b0 0 z) 0 (header_bytes h) = header_bytes h ++ skipn overhead z ++ skipn (Z.to_nat n) b0).
  { rewrite E1. unfold patch. cbn [firstn app]. f_equal. rewrite Lh. rewrite skipn_app, Lz.
    replace (0 + overhead - Z.to_nat n)%nat with 0%nat by (unfold overhead in *; lia). reflexivity. }
  exists (header_bytes h ++ skipn overhead z ++ skipn (Z.to_nat n) b0). split; [rewrite E2; reflexivity|].
  assert (Lb : length (header_bytes h ++ skipn overhead z ++ skipn (Z.to_nat n) b0) = length b0).
  { rewrite !app_length, Lh, !skipn_length, Lz. unfold overhead in *. lia. }
  split; [|split; [exact Lb|]].
  - constructor; cbn [length map].
    + exists (skipn overhead z ++ skipn (Z.to_nat n) b0). reflexivity.
    + rewrite Lb. exact M.
    + lia.
    + change (bytes_needed []) with 21. lia.
    + constructor.
    + constructor.
    + lia.
  - rewrite app_assoc.
    replace (Z.to_nat n) with (length (header_bytes h ++ skipn overhead z)) at 1
      by (rewrite app_length, Lh, skipn_length, Lz; unfold overhead in *; lia).
    apply skipn_exact.
Qed.

Lemma get_inv n l b k : Inv n l b ->
  np_get_data b k = Done (match lookup k l with Some v => (np_data_ok, Some v) | None => (np_key_not_found, None) end).
Proof.
  intros I. unfold np_get_data. pose proof (search_inv n l b k I) as S. destruct (lookup k l).
  - destruct S as (? & ? & _ & _ & ->). reflexivity.
  - rewrite S. reflexivity.
Qed.

Lemma put_key_in k v l : forall q, In q (map fst (put k v l)) -> q = k \/ In q (map fst l).
Proof.
  induction l as [|[k' v'] l IH]; intros q; cbn [put map fst In]; [intuition|].
  destruct (list_eq_dec Z.eq_dec k' k); cbn [map fst In]; [intuition|]. intros [H|H]; [auto|]. destruct (IH q H); auto.
Qed.

Lemma spec_set_inv n l b k v U : Inv n l b -> good_key k -> good_value v -> Z.of_nat (length U) <= 65535 ->
  In k U -> incl (map fst l) U ->
  exists b', np_set_data b k v = Done (fst (spec_set n l k v), b') /\ Inv n (snd (spec_set n l k v)) b' /\
    incl (map fst (snd (spec_set n l k v))) U /\ length b' = length b /\ skipn (Z.to_nat n) b' = skipn (Z.to_nat n) b.
Proof.
  intros I Gk Gv HU Hk Hl.
  assert (Hp : incl (map fst (put k v l)) U) by (intros q Hq; destruct (put_key_in k v l q Hq) as [->|]; auto).
  assert (Few : Z.of_nat (length (put k v l)) <= 65535).
  { pose proof (NoDup_incl_length (put_keys k v l (inv_keys _ _ _ I)) Hp) as L. rewrite map_length in L. lia. }
  destruct (set_step n l b k v I Gk Gv Few) as [S1 S2]. unfold spec_set.
  destruct (Z.leb_spec (bytes_needed (put k v l)) n) as [F|F]; cbn [fst snd].
  - destruct (S1 F) as (b' & E & I' & L & K). exists b'. auto.
  - exists b. split; [exact (S2 F)|]. auto.
Qed.

Lemma writes_inv n U : Z.of_nat (length U) <= 65535 -> forall ws l b, Inv n l b -> Forall good_entry ws -> incl (map fst ws) U ->
  incl (map fst l) U -> exists b', writes ws b = Done (fst (spec_writes n ws l), b') /\ Inv n (snd (spec_writes n ws l)) b' /\
    length b' = length b /\ skipn (Z.to_nat n) b' = skipn (Z.to_nat n) b.
Proof.
  intros HU. induction ws as [|[k v] ws IH]; intros l b I G Hw Hl.
  - exists b. auto.
  - inversion G as [|? ? [Gk Gv] G']; subst. cbn [fst snd] in Gk, Gv. cbn [writes spec_writes].
    destruct (spec_set_inv n l b k v U I Gk Gv HU (Hw k (or_introl eq_refl)) Hl) as (b1 & E1 & I1 & H1 & L1 & K1).
    rewrite E1. cbn [rbind fst snd]. destruct (spec_set n l k v) as [r l']. cbn [fst snd] in *.
    destruct (IH l' b1 I1 G') as (b2 & E2 & I2 & L2 & K2); [intros q Hq; apply Hw; right; exact Hq|exact H1|].
    rewrite E2. cbn [rbind fst snd]. destruct (spec_writes n ws l') as [rs l'']. cbn [fst snd] in *.
    exists b2. split; [reflexivity|]. split; [exact I2|]. split; congruence.
Qed.

Lemma last_written_lookup n ws : forall l k,
  lookup k (snd (spec_writes n ws l)) = match last_written k ws (fst (spec_writes n ws l)) with Some v => Some v | None => lookup k l end.
Proof.
  induction ws as [|[k' v'] ws IH]; intros l k; cbn [spec_writes]; [reflexivity|].
  unfold spec_set. destruct (Z.leb_spec (bytes_needed (put k' v' l)) n).
  - specialize (IH (put k' v' l) k). destruct (spec_writes n ws (put k' v' l)) as [rs l'']. cbn [fst snd last_written] in *.
    rewrite IH. destruct (last_written k ws rs); [reflexivity|]. rewrite lookup_put. destruct (list_eq_dec Z.eq_dec k' k); reflexivity.
  - specialize (IH l k). destruct (spec_writes n ws l) as [rs l'']. cbn [fst snd last_written] in *.
    rewrite IH. destruct (last_written k ws rs); reflexivity.
Qed.

Lemma iterate_found {S} (cb : S -> list Z -> datum -> S * bool) rest : forall l, Forall good_entry l -> forall pre s,
  iterate_from cb (length l) (length pre) (pre ++ flat l ++ rest) s = Done (visit cb l s).
Proof.
  induction 1 as [|[k w] l [Gk Gw] Gl IH]; intros pre s; [reflexivity|]. cbn [length iterate_from visit fst snd] in *.
  rewrite skipn_exact, flat_cons, <- app_assoc, read_object_ok by assumption. cbn [rbind].
  destruct (cb s k w) as [s' []]; [|reflexivity]. specialize (IH (pre ++ encode k w) s'). rewrite app_length, <- app_assoc in IH. exact IH.
Qed.

Lemma iterate_inv {S} (cb : S -> list Z -> datum -> S * bool) n l b s : Inv n l b -> np_iterate_data cb b s = Done (visit cb l s).
Proof.
  intros I. destruct (inv_hdr n l b I) as [(A & B & C) M]. unfold np_iterate_data.
  destruct (Nat.ltb_spec (length b) overhead); [lia|]. rewrite (inv_header n l b I). cbn [h_count].
  pose proof (inv_few _ _ _ I). destruct (Z.gtb_spec (Z.of_nat (length l)) 65535); [lia|]. rewrite Nat2Z.id.
  destruct (inv_bytes _ _ _ I) as [rest E]. set (H' := header_bytes _) in *.
  assert (L : length H' = overhead) by (apply header_length; assumption). rewrite E, <- L. apply iterate_found. apply I.
Qed.

Lemma merge_found n U : Z.of_nat (length U) <= 65535 -> forall src, Forall good_entry src -> incl (map fst src) U ->
  forall pre l b, Inv n l b -> incl (map fst l) U -> exists b', merge_from (length src) (length pre) (pre ++ flat src) b = Done (fst (spec_merge n src l), b') /\
    Inv n (snd (spec_merge n src l)) b'.
Proof.
  intros HU. induction 1 as [|[k w] src [Gk Gw] Gl IH]; intros Hs pre l b I Hl.
  - exists b. auto.
  - cbn [length merge_from spec_merge fst snd] in *. rewrite skipn_exact, flat_cons, read_object_ok by assumption. cbn [rbind].
    destruct (spec_set_inv n l b k w U I Gk Gw HU (Hs k (or_introl eq_refl)) Hl) as (b1 & E1 & I1 & H1 & L1 & K1).
    rewrite E1. cbn [rbind]. unfold spec_set in *. destruct (bytes_needed (put k w l) <=? n); cbn [fst snd] in *.
    + destruct (IH ltac:(intros q Hq; apply Hs; right; exact Hq) (pre ++ encode k w) _ _ I1 H1) as (b2 & E2 & I2).
      exists b2. split; [|exact I2]. rewrite app_length, <- app_assoc in E2. exact E2.
    + exists b1. auto.
Qed.
Lemma merge_inv n ns l ls b bs U : Inv n l b -> Inv ns ls bs -> Z.of_nat (length U) <= 65535 -> incl (map fst l) U -> incl (map fst ls) U ->
  exists b', np_merge_data b bs = Done (fst (spec_merge n ls l), b') /\ Inv n (snd (spec_merge n ls l)) b'.
Proof.
  intros I Is HU Hl Hs. destruct (inv_hdr ns ls bs Is) as [(A & B & C) M]. unfold np_merge_data.
  destruct (Nat.ltb_spec (length bs) overhead); [lia|]. rewrite (inv_header ns ls bs Is). cbn [h_count h_used].
  pose proof (inv_few _ _ _ Is). pose proof (inv_mem _ _ _ Is). pose proof (inv_fits _ _ _ Is).
  destruct (Z.gtb_spec (bytes_needed ls) (Z.of_nat (length bs))); [lia|].
  destruct (Z.gtb_spec (Z.of_nat (length ls)) 65535); [lia|]. cbn [orb]. rewrite Nat2Z.id.
  destruct (inv_bytes _ _ _ Is) as [rest E]. rewrite (area ns ls bs rest Is E). set (H' := header_bytes _) in *.
  assert (L : length H' = overhead) by (apply header_length; assumption). rewrite <- L.
  apply (merge_found n U HU ls (inv_good _ _ _ Is) Hs H' l b I Hl).
Qed.
