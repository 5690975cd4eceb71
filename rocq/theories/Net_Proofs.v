(** Proofs about the sockets. *)
From Coq Require Import List ZArith Lia Bool.
From Verif Require Import Base Net_Model Net_Spec.
Import ListNotations.
Open Scope nat_scope.

Lemma PACKET_pos : 0 < PACKET.
Proof. unfold PACKET. lia. Qed.

Lemma packet_len : forall p, packet p -> length p = PACKET.
Proof. intros p H. exact H. Qed.

#[global] Opaque PACKET.

(** ** Sending *)

Lemma send_loop_covers : forall answers pkt w wire,
  length pkt = PACKET -> w < PACKET -> covers (PACKET - w) answers = true ->
  send_loop pkt w wire answers = (PACKET, wire ++ skipn w pkt).
Proof.
  induction answers as [|a r IH]; intros pkt w wire L W C; [discriminate|].
  cbn [covers] in C. cbn [send_loop]. unfold kernel_send.
  destruct (a =? 0) eqn:A; [discriminate|]. apply Nat.eqb_neq in A.
  destruct (PACKET - w <=? a) eqn:B.
  - apply Nat.leb_le in B. rewrite Nat.min_l by lia.
    replace (0 <? PACKET - w) with true by (symmetry; apply Nat.ltb_lt; lia).
    replace (PACKET - w <=? PACKET) with true by (symmetry; apply Nat.leb_le; lia).
    cbn [andb]. replace (w + (PACKET - w)) with PACKET by lia.
    rewrite Nat.ltb_irrefl. f_equal. f_equal. apply firstn_all2.
    rewrite skipn_length. lia.
  - apply Nat.leb_gt in B. rewrite Nat.min_r by lia.
    replace (0 <? a) with true by (symmetry; apply Nat.ltb_lt; lia).
    replace (a <=? PACKET) with true by (symmetry; apply Nat.leb_le; lia).
    cbn [andb]. replace (w + a <? PACKET) with true by (symmetry; apply Nat.ltb_lt; lia).
    rewrite IH; [|exact L|lia|replace (PACKET - (w + a)) with (PACKET - w - a) by lia; exact C].
    rewrite <- app_assoc. f_equal. f_equal.
    rewrite <- (firstn_skipn a (skipn w pkt)) at 2. f_equal.
    clear. revert w. induction pkt as [|x p IHp]; intros w.
    + rewrite !skipn_nil. reflexivity.
    + destruct w; [reflexivity|]. cbn [skipn Nat.add]. apply IHp.
Qed.

Lemma send_loop_refused : forall answers pkt wire,
  refused answers = true -> send_loop pkt 0 wire answers = (0, wire).
Proof.
  intros [|a r] pkt wire H; [reflexivity|]. cbn [refused] in H.
  apply Nat.eqb_eq in H. subst a. cbn [send_loop]. unfold kernel_send.
  rewrite Nat.min_0_r. reflexivity.
Qed.

(** ** Receiving *)

Lemma recv_loop_covers : forall answers buf p rest,
  length buf + length p = PACKET -> length buf < PACKET ->
  covers (PACKET - length buf) answers = true ->
  recv_loop false buf (p ++ rest) answers = (Got (buf ++ p), rest).
Proof.
  induction answers as [|a r IH]; intros buf p rest L W C; [discriminate|].
  cbn [covers] in C. cbn [recv_loop]. rewrite app_length.
  destruct (a =? 0) eqn:A; [discriminate|]. apply Nat.eqb_neq in A.
  destruct (PACKET - length buf <=? a) eqn:B.
  - apply Nat.leb_le in B.
    replace (Nat.min (PACKET - length buf) (Nat.min a (length p + length rest)))
      with (length p) by lia.
    replace (length p =? 0) with false by (symmetry; apply Nat.eqb_neq; lia).
    rewrite firstn_app, firstn_all, Nat.sub_diag. cbn [firstn].
    rewrite app_nil_r, app_length, L, Nat.ltb_irrefl.
    rewrite skipn_app, skipn_all, Nat.sub_diag. reflexivity.
  - apply Nat.leb_gt in B.
    replace (Nat.min (PACKET - length buf) (Nat.min a (length p + length rest)))
      with a by lia.
    replace (a =? 0) with false by (symmetry; apply Nat.eqb_neq; lia).
    rewrite firstn_app. replace (a - length p) with 0 by lia. cbn [firstn].
    rewrite app_nil_r, app_length, firstn_length, Nat.min_l by lia.
    replace (length buf + a <? PACKET) with true by (symmetry; apply Nat.ltb_lt; lia).
    rewrite skipn_app. replace (a - length p) with 0 by lia. cbn [skipn].
    rewrite IH.
    + rewrite <- app_assoc, firstn_skipn. reflexivity.
    + rewrite app_length, firstn_length, skipn_length. lia.
    + rewrite app_length, firstn_length. lia.
    + rewrite app_length, firstn_length, Nat.min_l by lia.
      replace (PACKET - (length buf + a)) with (PACKET - length buf - a) by lia.
      exact C.
Qed.

Lemma recv_loop_refused : forall answers pending,
  refused answers = true -> recv_loop false [] pending answers = (Failed, pending).
Proof.
  intros [|a r] pending H; [reflexivity|]. cbn [refused] in H.
  apply Nat.eqb_eq in H. subst a. cbn [recv_loop length].
  rewrite Nat.min_0_l, Nat.min_0_r. reflexivity.
Qed.

Lemma recv_loop_empty : forall answers,
  recv_loop false [] [] answers = (Failed, []).
Proof.
  intros [|a r]; [reflexivity|]. cbn [recv_loop length].
  rewrite !Nat.min_0_r. reflexivity.
Qed.

Lemma judge_full : forall buf from load max,
  length buf = PACKET -> (load <= max)%Z ->
  judge (Got buf) from load max = Packet from buf.
Proof.
  intros buf from load max L H. unfold judge. rewrite L, Nat.eqb_refl.
  replace (max <? load)%Z with false by (symmetry; apply Z.ltb_ge; lia).
  reflexivity.
Qed.

Lemma covers_PACKET : forall a, covers 1046 a = covers PACKET a.
Proof. reflexivity. Qed.

(** ** The invariant of a connection *)

Definition fits (gave : list (list byte)) (s : tcp) : Prop :=
  exists flight,
    gave = t_got s ++ flight ++ t_queue s /\
    t_wire s = concat flight /\
    Forall packet flight /\ Forall packet (t_queue s).

Lemma write_uncut : forall load max a q w,
  Forall packet q -> covers 1046 a = true \/ refused a = true ->
  write load max a q w = (q, w) \/
  exists p q', q = p :: q' /\ write load max a q w = (q', w ++ p).
Proof.
  intros load max a q w Q U. unfold write. destruct q as [|p q']; [left; reflexivity|].
  unfold send_data. destruct (max <? load)%Z; [left; reflexivity|].
  destruct U as [U|U].
  - inversion_clear Q. rewrite send_loop_covers.
    + rewrite Nat.eqb_refl. right. exists p, q'. split; reflexivity.
    + apply packet_len. assumption.
    + apply PACKET_pos.
    + rewrite Nat.sub_0_r. rewrite <- covers_PACKET. exact U.
  - rewrite (send_loop_refused _ _ _ U).
    replace (0 =? PACKET) with false
      by (symmetry; apply Nat.eqb_neq; pose proof PACKET_pos; lia).
    left. reflexivity.
Qed.

Lemma read_uncut : forall load max a flight,
  Forall packet flight -> (load <= max)%Z ->
  covers 1046 a = true \/ refused a = true ->
  (let '(c, w) := recv_loop false [] (concat flight) a in
   w = concat flight /\ judge c 0%Z load max = Nothing) \/
  exists p r, flight = p :: r /\
    let '(c, w) := recv_loop false [] (concat flight) a in
    w = concat r /\ judge c 0%Z load max = Packet 0%Z p.
Proof.
  intros load max a flight F M U. destruct flight as [|p r].
  - left. cbn [concat]. rewrite recv_loop_empty. split; reflexivity.
  - destruct U as [U|U].
    + right. exists p, r. split; [reflexivity|]. cbn [concat].
      inversion_clear F. rewrite recv_loop_covers.
      * split; [reflexivity|]. cbn [app]. apply judge_full; [apply packet_len|]; assumption.
      * cbn [length]. apply packet_len. assumption.
      * cbn [length]. apply PACKET_pos.
      * cbn [length]. rewrite Nat.sub_0_r, <- covers_PACKET. exact U.
    + left. rewrite (recv_loop_refused _ _ U). split; reflexivity.
Qed.

Lemma step_fits : forall max gave s e,
  fits gave s -> uncut e -> below max e ->
  fits (gave ++ queued [e]) (tcp_step max s e).
Proof.
  intros max gave s e [fl [G [W [P Q]]]] U B. destruct e as [p|load a|load a].
  - cbn [tcp_step queued]. exists fl. cbn [t_got t_queue t_wire].
    repeat split; try assumption.
    + rewrite G, !app_assoc. reflexivity.
    + apply Forall_app. split; [exact Q|constructor; [exact U|constructor]].
  - cbn [tcp_step queued]. rewrite app_nil_r.
    destruct (write_uncut load max a (t_queue s) (t_wire s) Q U) as [E|[p [q' [E1 E]]]];
      rewrite E.
    + exists fl. repeat split; assumption.
    + exists (fl ++ [p]). cbn [t_got t_queue t_wire]. rewrite E1 in G, Q.
      inversion_clear Q. repeat split.
      * rewrite G, <- !app_assoc. reflexivity.
      * rewrite concat_app, W. cbn [concat]. rewrite app_nil_r. reflexivity.
      * apply Forall_app. split; [assumption|constructor; [assumption|constructor]].
      * assumption.
  - cbn [tcp_step queued]. rewrite app_nil_r. rewrite W.
    destruct (read_uncut load max a fl P B U) as [E|[p [r [E1 E]]]];
      destruct (recv_loop false [] (concat fl) a) as [c w]; destruct E as [-> ->].
    + exists fl. repeat split; assumption.
    + exists r. cbn [t_got t_queue t_wire]. subst fl. inversion_clear P.
      repeat split; try assumption. rewrite G, <- !app_assoc. reflexivity.
Qed.

Lemma queued_app : forall a b, queued (a ++ b) = queued a ++ queued b.
Proof.
  induction a as [|e a IH]; intros b; [reflexivity|].
  destruct e; cbn [queued app]; rewrite IH; reflexivity.
Qed.

Lemma run_fits : forall max es gave s,
  fits gave s -> Forall uncut es -> Forall (below max) es ->
  fits (gave ++ queued es) (tcp_run max s es).
Proof.
  induction es as [|e es IH]; intros gave s F U B.
  - cbn [queued]. rewrite app_nil_r. exact F.
  - inversion_clear U. inversion_clear B.
    change (e :: es) with ([e] ++ es). rewrite queued_app, app_assoc.
    cbn [tcp_run app fold_left]. apply (IH (gave ++ queued [e])); try assumption.
    apply step_fits; assumption.
Qed.

Lemma tcp_in_order : forall max es,
  Forall uncut es -> Forall (below max) es ->
  exists flight,
    queued es = t_got (tcp_run max tcp0 es) ++ flight ++ t_queue (tcp_run max tcp0 es) /\
    t_wire (tcp_run max tcp0 es) = concat flight /\ Forall packet flight.
Proof.
  intros max es U B. pose proof (run_fits max es [] tcp0) as H.
  destruct H as [fl [G [W [P Q]]]]; try assumption.
  - exists []. repeat split; constructor.
  - exists fl. repeat split; assumption.
Qed.

(** ** Everything arrives *)

Lemma covers_one : covers 1046 [1046] = true.
Proof. reflexivity. Qed.

Lemma tcp_run_app : forall max a b s,
  tcp_run max s (a ++ b) = tcp_run max (tcp_run max s a) b.
Proof. intros. unfold tcp_run. apply fold_left_app. Qed.

Lemma write_all : forall max n q w g,
  (0 <= max)%Z -> Forall packet q -> length q <= n ->
  tcp_run max (mkTcp q w g) (repeat (Writable 0 [1046]) n) =
  mkTcp [] (w ++ concat q) g.
Proof.
  intros max. induction n as [|n IH]; intros q w g M Q L.
  - destruct q; [|cbn in L; lia]. cbn. rewrite app_nil_r. reflexivity.
  - cbn [repeat]. change (tcp_run max ?s (?e :: ?es)) with (tcp_run max (tcp_step max s e) es).
    cbn [tcp_step t_queue t_wire t_got]. destruct q as [|p q'].
    + cbn [write]. rewrite IH; [reflexivity|exact M|constructor|cbn; lia].
    + inversion_clear Q. unfold write, send_data.
      replace (max <? 0)%Z with false by (symmetry; apply Z.ltb_ge; lia).
      rewrite send_loop_covers;
        [|apply packet_len; assumption|apply PACKET_pos
         |rewrite Nat.sub_0_r, <- covers_PACKET; exact covers_one].
      rewrite Nat.eqb_refl. cbn [skipn]. rewrite IH; [|exact M|assumption|cbn in L; lia].
      cbn [concat]. rewrite app_assoc. reflexivity.
Qed.

Lemma read_all : forall max n fl q g,
  (0 <= max)%Z -> Forall packet fl -> length fl <= n ->
  tcp_run max (mkTcp q (concat fl) g) (reads n) = mkTcp q [] (g ++ fl).
Proof.
  intros max. induction n as [|n IH]; intros fl q g M F L.
  - destruct fl; [|cbn in L; lia]. cbn. rewrite app_nil_r. reflexivity.
  - unfold reads. cbn [repeat]. fold (reads n).
    change (tcp_run max ?s (?e :: ?es)) with (tcp_run max (tcp_step max s e) es).
    cbn [tcp_step t_queue t_wire t_got]. destruct fl as [|p r].
    + cbn [concat]. rewrite recv_loop_empty. cbn [judge].
      exact (IH [] q g M (Forall_nil _) (Nat.le_0_l n)).
    + inversion_clear F. cbn [concat].
      rewrite (recv_loop_covers [1046] [] p (concat r));
        [|cbn [length]; apply packet_len; assumption|cbn [length]; apply PACKET_pos
         |cbn [length]; rewrite Nat.sub_0_r, <- covers_PACKET; exact covers_one].
      cbn [app]. rewrite judge_full; [|apply packet_len; assumption|lia].
      rewrite IH; [|exact M|assumption|cbn in L; lia].
      rewrite <- app_assoc. reflexivity.
Qed.

Lemma tcp_all_arrive : forall max es n,
  (0 <= max)%Z -> Forall uncut es -> Forall (below max) es ->
  length (queued es) <= n ->
  t_got (tcp_run max tcp0 (es ++ repeat (Writable 0 [1046]) n ++ reads n)) = queued es.
Proof.
  intros max es n M U B L.
  pose proof (run_fits max es [] tcp0) as H.
  destruct H as [fl [G [W [P Q]]]]; try assumption.
  { exists []. repeat split; constructor. }
  cbn [app] in G. rewrite !tcp_run_app.
  destruct (tcp_run max tcp0 es) as [q w g]. cbn [t_got t_queue t_wire] in *.
  rewrite G, !app_length in L.
  rewrite write_all; [|exact M|exact Q|lia].
  rewrite W, <- concat_app.
  rewrite read_all; [|exact M|apply Forall_app; split; assumption|rewrite app_length; lia].
  cbn [t_got]. rewrite G. reflexivity.
Qed.

(** ** Cut streams *)

Lemma recv_partial : forall k s,
  0 < k < PACKET -> k <= length s ->
  recv_loop false [] s [k; 0] = (Failed, skipn k s).
Proof.
  intros k s K L. cbn [recv_loop length]. rewrite Nat.sub_0_r.
  replace (Nat.min PACKET (Nat.min k (length s))) with k by lia.
  replace (k =? 0) with false by (symmetry; apply Nat.eqb_neq; lia).
  cbn [app]. rewrite firstn_length, Nat.min_l by lia.
  replace (k <? PACKET) with true by (symmetry; apply Nat.ltb_lt; lia).
  rewrite Nat.min_0_l, Nat.min_0_r. reflexivity.
Qed.

Lemma shift_concat : forall k ps p,
  packet p -> Forall packet ps -> k <= PACKET ->
  skipn k (concat (p :: ps)) =
  concat (shifted k (p :: ps)) ++ skipn k (last (p :: ps) p) /\
  Forall packet (shifted k (p :: ps)).
Proof.
  intros k. induction ps as [|q ps IH]; intros p P Q K.
  - cbn [concat shifted last app]. rewrite app_nil_r. split; [reflexivity|constructor].
  - inversion_clear Q. destruct (IH q) as [E F]; try assumption.
    split.
    + change (shifted k (p :: q :: ps))
        with ((skipn k p ++ firstn k q) :: shifted k (q :: ps)).
      change (concat (p :: q :: ps)) with (p ++ concat (q :: ps)).
      rewrite skipn_app. replace (k - length p) with 0
        by (rewrite (packet_len p P); lia). cbn [skipn].
      cbn [concat]. rewrite <- !app_assoc. f_equal.
      change (q ++ concat ps) with (concat (q :: ps)).
      rewrite <- (firstn_skipn k (concat (q :: ps))). f_equal.
      * cbn [concat]. rewrite firstn_app. replace (k - length q) with 0
          by (rewrite (packet_len q H); lia). cbn [firstn]. rewrite app_nil_r. reflexivity.
      * rewrite E. f_equal. f_equal.
        change (last (p :: q :: ps) p) with (last (q :: ps) p).
        clear. revert q. induction ps as [|x ps IH]; intros q; [reflexivity|].
        change (last (x :: ps) q = last (x :: ps) p).
        generalize x. clear IH. revert x. induction ps as [|y ps IH]; intros _ x; [reflexivity|].
        change (last (y :: ps) q = last (y :: ps) p). apply IH. exact x.
    + change (shifted k (p :: q :: ps))
        with ((skipn k p ++ firstn k q) :: shifted k (q :: ps)).
      constructor; [|exact F]. unfold packet.
      rewrite app_length, skipn_length, firstn_length.
      rewrite (packet_len p P), (packet_len q H).
      change 1046 with PACKET. lia.
Qed.

Lemma shifted_length : forall k ps p, length (shifted k (p :: ps)) = length ps.
Proof.
  intros k. induction ps as [|q ps IH]; intros p; [reflexivity|].
  change (shifted k (p :: q :: ps)) with ((skipn k p ++ firstn k q) :: shifted k (q :: ps)).
  cbn [length]. rewrite IH. reflexivity.
Qed.

(** What a read finds when it takes whole packets off a stream that ends in
    the middle of one. *)
Lemma read_blocks : forall max n bl tl q g,
  (0 <= max)%Z -> Forall packet bl -> length bl = n ->
  tcp_run max (mkTcp q (concat bl ++ tl) g) (reads n) = mkTcp q tl (g ++ bl).
Proof.
  intros max. induction n as [|n IH]; intros bl tl q g M F L.
  - destruct bl; [|cbn in L; lia]. cbn. rewrite app_nil_r. reflexivity.
  - destruct bl as [|p r]; [discriminate|]. inversion_clear F.
    unfold reads. cbn [repeat]. fold (reads n).
    change (tcp_run max ?s (?e :: ?es)) with (tcp_run max (tcp_step max s e) es).
    cbn [tcp_step t_queue t_wire t_got concat]. rewrite <- app_assoc.
    rewrite (recv_loop_covers [1046] [] p (concat r ++ tl));
      [|cbn [length]; apply packet_len; assumption|cbn [length]; apply PACKET_pos
       |cbn [length]; rewrite Nat.sub_0_r, <- covers_PACKET; exact covers_one].
    cbn [app]. rewrite judge_full; [|apply packet_len; assumption|lia].
    rewrite IH; [|exact M|assumption|cbn in L; lia].
    rewrite <- app_assoc. reflexivity.
Qed.

Lemma tcp_cut_read : forall max k p ps load,
  (0 <= max)%Z -> 0 < k < 1046 -> packet p -> Forall packet ps ->
  t_got (tcp_run max (sent_all (p :: ps)) (Readable load [k; 0] :: reads (length ps))) =
  shifted k (p :: ps).
Proof.
  intros max k p ps load M K P Q. change 1046 with PACKET in K.
  change (tcp_run max ?s (?e :: ?es)) with (tcp_run max (tcp_step max s e) es).
  unfold sent_all. cbn [tcp_step t_queue t_wire t_got].
  rewrite recv_partial; [|exact K|].
  2: { cbn [concat]. rewrite app_length, (packet_len p P). lia. }
  cbn [judge].
  destruct (shift_concat k ps p P Q) as [E F]; [lia|]. rewrite E.
  rewrite read_blocks; [reflexivity|exact M|exact F|apply shifted_length].
Qed.

Lemma repeat_packet : forall x, packet (repeat x 1046).
Proof. intros. unfold packet. apply repeat_length. Qed.

Lemma plain_packets : forall n, Forall packet (plain n).
Proof.
  intros n. apply Forall_forall. intros p H. unfold plain in H.
  apply in_map_iff in H. destruct H as [m [<- _]]. apply repeat_packet.
Qed.

Lemma repeat_nth_in : forall x m i (d : Z), i < m -> nth i (repeat x m) d = x.
Proof.
  intros x. induction m; intros i d H; [lia|]. destruct i; [reflexivity|].
  cbn [repeat nth]. apply IHm. lia.
Qed.

Lemma seam_differs : forall k (x y z : Z),
  0 < k < PACKET -> x <> y ->
  skipn k (repeat x PACKET) ++ firstn k (repeat y PACKET) <> repeat z PACKET.
Proof.
  intros k x y z K N E. apply N.
  assert (LS : length (skipn k (repeat x PACKET)) = PACKET - k)
    by (rewrite skipn_length, repeat_length; reflexivity).
  transitivity z.
  - transitivity (nth 0 (skipn k (repeat x PACKET) ++ firstn k (repeat y PACKET)) 0%Z).
    + rewrite app_nth1 by lia.
      rewrite <- (repeat_nth_in x PACKET k 0%Z) at 1 by lia.
      generalize (repeat x PACKET). clear. induction k; intros l; [destruct l; reflexivity|].
      destruct l; [reflexivity|]. cbn [nth skipn]. apply IHk.
    + rewrite E. apply repeat_nth_in. lia.
  - symmetry.
    transitivity (nth (PACKET - k) (skipn k (repeat x PACKET) ++ firstn k (repeat y PACKET)) 0%Z).
    + rewrite app_nth2 by lia. rewrite LS, Nat.sub_diag.
      rewrite <- (repeat_nth_in y PACKET 0 0%Z) at 1 by lia.
      destruct k; [lia|]. destruct (repeat y PACKET); reflexivity.
    + rewrite E. apply repeat_nth_in. lia.
Qed.

Lemma shifted_plain : forall k n a x,
  0 < k < PACKET ->
  In x (shifted k (map (fun m => repeat (Z.of_nat m) PACKET) (seq a n))) ->
  forall z, x <> repeat z PACKET.
Proof.
  intros k. induction n as [|n IH]; intros a x K H z; [destruct H|].
  destruct n as [|n]; [destruct H|]. cbn [seq map] in H, IH.
  destruct H as [<-|H].
  - apply seam_differs; [exact K|lia].
  - apply (IH (Datatypes.S a)); [exact K|exact H].
Qed.

Lemma plain_lost : forall k n x,
  0 < k < 1046 -> In x (shifted k (plain n)) -> ~ In x (plain n).
Proof.
  intros k n x K H I. unfold plain in I. apply in_map_iff in I.
  destruct I as [m [E _]]. change 1046 with PACKET in *.
  apply (shifted_plain k n 0 x K H (Z.of_nat m)). symmetry. exact E.
Qed.

Lemma plain_cons : forall n, plain (Datatypes.S n) = repeat 0%Z 1046 :: tl (plain (Datatypes.S n)).
Proof. reflexivity. Qed.

Lemma plain_length : forall n, length (plain n) = n.
Proof. intros. unfold plain. rewrite map_length, seq_length. reflexivity. Qed.

(** ** A packet sent again *)

Lemma send_partial : forall k pkt wire,
  0 < k < PACKET ->
  send_loop pkt 0 wire [k; 0] = (k, wire ++ firstn k pkt).
Proof.
  intros k pkt wire K. cbn [send_loop]. unfold kernel_send. rewrite Nat.sub_0_r.
  rewrite Nat.min_r by lia.
  replace (0 <? k) with true by (symmetry; apply Nat.ltb_lt; lia).
  replace (k <=? PACKET) with true by (symmetry; apply Nat.leb_le; lia).
  cbn [andb]. rewrite Nat.add_0_l.
  replace (k <? PACKET) with true by (symmetry; apply Nat.ltb_lt; lia).
  rewrite Nat.min_0_r. cbn [skipn]. reflexivity.
Qed.

Lemma tcp_resent : forall max k p ps,
  (0 <= max)%Z -> 0 < k < 1046 -> packet p -> Forall packet ps ->
  t_wire (tcp_run max (mkTcp (p :: ps) [] [])
            (Writable 0 [k; 0] :: repeat (Writable 0 [1046]) (length (p :: ps)))) =
  firstn k p ++ concat (p :: ps).
Proof.
  intros max k p ps M K P Q. change 1046 with PACKET in K at 1.
  change (tcp_run max ?s (?e :: ?es)) with (tcp_run max (tcp_step max s e) es).
  cbn [tcp_step t_queue t_wire t_got]. unfold write, send_data.
  replace (max <? 0)%Z with false by (symmetry; apply Z.ltb_ge; lia).
  rewrite send_partial by exact K.
  replace (k =? PACKET) with false by (symmetry; apply Nat.eqb_neq; lia).
  cbn [app]. rewrite write_all; [reflexivity|exact M|constructor; assumption|lia].
Qed.

(** ** UDP *)

Lemma recvfrom_full : forall a d w,
  full d -> recvfrom_loop [] 0%Z ((a, d) :: w) = (Got (firstn 1046 d), a, w).
Proof.
  intros a d w F. cbn [recvfrom_loop length]. rewrite Nat.sub_0_r.
  unfold full in F. change 1046 with PACKET in *.
  rewrite firstn_length, Nat.min_l by exact F.
  replace (PACKET =? 0) with false
    by (symmetry; apply Nat.eqb_neq; pose proof PACKET_pos; lia).
  cbn [app]. rewrite firstn_length, Nat.min_l, Nat.ltb_irrefl by exact F. reflexivity.
Qed.

Definition cut (x : addr * list byte) : addr * list byte := (fst x, firstn 1046 (snd x)).

Definition ufits (came : list (addr * list byte)) (s : udp) : Prop :=
  s_can (u_sock s) = true /\ s_rd (u_sock s) = true /\
  Forall (fun x => full (snd x)) (u_waiting s) /\
  came = received s ++ map cut (u_waiting s).

Lemma start_on : forall s, s_rd s = true -> s_can s = true ->
  s_rd (start s) = true /\ s_can (start s) = true.
Proof. intros s R C. unfold start. rewrite C. cbn. rewrite R. split; reflexivity. Qed.

Lemma enable_on : forall s, s_rd s = true ->
  s_rd (enable s) = true /\ s_can (enable s) = true.
Proof. intros s R. unfold enable. apply start_on; [exact R|reflexivity]. Qed.

Lemma ustep_fits : forall max came s e,
  ufits came s -> ordinary max e ->
  ufits (came ++ arrived [e]) (udp_step max s e).
Proof.
  intros max came s e [C [R [F G]]] O. destruct e as [a d|load st| | | |].
  - cbn [udp_step arrived]. unfold ufits. cbn [u_sock u_waiting].
    repeat split; try assumption.
    + apply Forall_app. split; [exact F|]. constructor; [exact O|constructor].
    + rewrite G, map_app, app_assoc. reflexivity.
  - cbn [udp_step arrived]. rewrite app_nil_r, R.
    destruct (u_waiting s) as [|[a d] w] eqn:W.
    + unfold ufits. rewrite W. repeat split; assumption.
    + inversion_clear F. cbn [snd] in H. rewrite (recvfrom_full a d w H).
      rewrite judge_full; [| |exact O].
      2: { unfold full in H. change 1046 with PACKET in *. rewrite firstn_length. lia. }
      unfold ufits. cbn [u_sock u_waiting]. repeat split; try assumption.
      unfold received. cbn [u_jobs]. rewrite map_app, <- app_assoc. rewrite G. reflexivity.
  - cbn [udp_step arrived]. rewrite app_nil_r. unfold ufits. cbn [u_sock u_waiting].
    destruct (start_on (u_sock s) R C). repeat split; assumption.
  - destruct O.
  - destruct O.
  - cbn [udp_step arrived]. rewrite app_nil_r. unfold ufits. cbn [u_sock u_waiting].
    destruct (enable_on (u_sock s) R). repeat split; assumption.
Qed.

Lemma arrived_app : forall a b, arrived (a ++ b) = arrived a ++ arrived b.
Proof.
  induction a as [|e a IH]; intros b; [reflexivity|].
  destruct e; cbn [arrived app]; rewrite IH; reflexivity.
Qed.

Lemma urun_fits : forall max es came s,
  ufits came s -> Forall (ordinary max) es ->
  ufits (came ++ arrived es) (udp_run max s es).
Proof.
  intros max. induction es as [|e es IH]; intros came s F O.
  - cbn [arrived]. rewrite app_nil_r. exact F.
  - inversion_clear O. change (e :: es) with ([e] ++ es).
    rewrite arrived_app, app_assoc. cbn [udp_run app fold_left].
    apply (IH (came ++ arrived [e])); [|assumption]. apply ustep_fits; assumption.
Qed.

Lemma udp0_fits : ufits [] udp0.
Proof. repeat split; constructor. Qed.

(** *** A disabled socket *)

Definition dead (s : udp) : Prop :=
  s_can (u_sock s) = false /\ s_rd (u_sock s) = false.

Lemma dead_step : forall max s e,
  dead s -> not_enabled e -> dead (udp_step max s e) /\ u_jobs (udp_step max s e) = u_jobs s.
Proof.
  intros max s e [C R] N. destruct e; cbn [udp_step].
  - split; [split; assumption|reflexivity].
  - rewrite R. split; [split; assumption|reflexivity].
  - split; [|reflexivity]. unfold start. rewrite C. split; assumption.
  - split; [|reflexivity]. split; [exact C|]. cbn. rewrite R. reflexivity.
  - split; [|reflexivity]. split; [reflexivity|]. cbn. rewrite R. reflexivity.
  - destruct N.
Qed.

Lemma dead_run : forall max es s,
  dead s -> Forall not_enabled es ->
  dead (udp_run max s es) /\ u_jobs (udp_run max s es) = u_jobs s.
Proof.
  intros max. induction es as [|e es IH]; intros s D N; [split; [exact D|reflexivity]|].
  inversion_clear N. destruct (dead_step max s e D H) as [D' J].
  destruct (IH _ D' H0) as [D2 J2]. split; [exact D2|]. cbn [udp_run fold_left] in *.
  unfold udp_run in J2. rewrite J2. exact J.
Qed.

Lemma disable_dead : forall s w j, s_srv s = true -> dead (mkUdp (disable s) w j).
Proof.
  intros s w j S. split; [reflexivity|]. cbn. rewrite S. destruct (s_rd s); reflexivity.
Qed.

Lemma recvfrom_short : forall a b c p w,
  0 < length b < PACKET -> PACKET <= length b + length p ->
  recvfrom_loop [] 0%Z ((a, b) :: (c, p) :: w) =
  (Got (b ++ firstn (PACKET - length b) p), c, w).
Proof.
  intros a b c p w B P. cbn [recvfrom_loop length].
  rewrite Nat.sub_0_r. rewrite (firstn_all2 b) by lia. cbn [app].
  replace (length b =? 0) with false by (symmetry; apply Nat.eqb_neq; lia).
  replace (length b <? PACKET) with true by (symmetry; apply Nat.ltb_lt; lia).
  rewrite firstn_length, Nat.min_l by lia.
  replace (PACKET - length b =? 0) with false by (symmetry; apply Nat.eqb_neq; lia).
  rewrite app_length, firstn_length, Nat.min_l by lia.
  replace (length b + (PACKET - length b)) with PACKET by lia.
  rewrite Nat.ltb_irrefl. reflexivity.
Qed.
