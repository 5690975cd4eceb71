(** C105 (percent-encoding), C106 (arguments of requests), C107 (callbacks and answers of the web server). *)
From Coq Require Import String.
From Verif Require Import Base Data_Model Uuid_Model Http_Model Http_Spec Http_Proofs.
Open Scope list_scope.
Open Scope Z_scope.

(** ** C105 *)
(** Every text (ending where the caller says) whose decoding has no percent sign and no zero byte is decoded, if the byte behind the copy
    happens to be zero.
    Missing: other values of this byte, texts that encode a percent sign or a zero byte (all refuted below). *)
Theorem C105_decoded_partial : forall s, ~ In 0 s -> ~ In 37 (percent s) -> ~ In 0 (percent s) ->
  rbind (url_decode s (length s) 0) c_string = Done (percent s).
Proof. intros s N P Z. destruct (decodes s N P Z) as (m & -> & E). exact E. Qed.
(** decoding ends for every text, length and memory, and with a zero behind the copy nothing outside of it is touched *)
Theorem C105_terminates : forall s len junk, url_decode s len junk <> Hangs.
Proof.
  intros s len junk. unfold url_decode. set (m := firstn len (s ++ repeat 0 len) ++ [junk]).
  assert (L : length m = S len) by (unfold m; rewrite app_length, firstn_length, app_length, repeat_length; cbn [length]; lia).
  destruct (rounds_end (len + 2) len m) as [->|[m' ->]]; [pose proof (nz_le m); lia|discriminate|discriminate].
Qed.
Theorem C105_safe : forall s len, exists m, url_decode s len 0 = Done m /\ exists r, c_string m = Done r.
Proof.
  intros s len. unfold url_decode. set (m := firstn len (s ++ repeat 0 len) ++ [0]).
  assert (Lf : length (firstn len (s ++ repeat 0 len)) = len) by (rewrite firstn_length, app_length, repeat_length; lia).
  assert (C : closed len m). { split; [unfold m; rewrite app_length, Lf; cbn [length]; lia|]. unfold m. rewrite nth_error_app2 by lia. rewrite Lf, Nat.sub_diag. reflexivity. }
  destruct (rounds_safe (len + 2) len m) as (m' & E & C'); [pose proof (nz_le m); destruct C; lia|exact C|]. exists m'. split; [exact E|].
  destruct C' as [_ Z]. apply nth_error_In in Z. unfold c_string. destruct (zero_at m') eqn:Ez; [eexists; reflexivity|]. exfalso. exact (zero_at_none m' Ez Z).
Qed.
(** C105 fails: whatever text a caller gives, if the byte behind the copy is not zero by chance, reading the result is undefined; *)
Theorem C105_junk_refuted : forall s junk, ~ In 0 s -> junk <> 0 -> rbind (url_decode s (length s) junk) c_string = Undef.
Proof.
  intros s junk N J. unfold url_decode. rewrite start_memory. assert (Nm : ~ In 0 (s ++ [junk])) by (rewrite in_app_iff; intros [H|[H|[]]]; congruence || contradiction).
  destruct (rounds_end (length s + 2) (length s) (s ++ [junk])) as [->|[m' E]]; [pose proof (nz_le (s ++ [junk])) as L; rewrite app_length in L; cbn [length] in L; lia|reflexivity|].
  rewrite E. cbn [rbind]. rewrite (rounds_open _ _ _ _ Nm E). unfold c_string. rewrite zero_at_nozero by exact Nm. reflexivity.
Qed.
(** a percent sign that was encoded is decoded again with what follows it; a zero byte that was encoded ends the text *)
Theorem C105_twice_refuted : let s := text "a%2541"%string in percent s = text "a%41"%string /\ rbind (url_decode s (length s) 0) c_string = Done (text "aA"%string).
Proof. split; vm_compute; reflexivity. Qed.
Theorem C105_nul_refuted : forall u t, ~ In 37 u -> ~ In 0 u -> ~ In 0 t -> let s := u ++ 37 :: 48 :: 48 :: t in
  rbind (url_decode s (length s) 0) c_string = Done u /\ percent s = u ++ 0 :: percent t.
Proof.
  intros u t U37 U0 Nt s. destruct (cut u t U37 U0 Nt) as (m & E & C). fold s in E. rewrite E. split; [exact C|]. unfold s. clear - U37.
  induction u as [|x u IH]; [reflexivity|]. cbn [app]. rewrite percent_cons by (intros ->; apply U37; left; reflexivity). rewrite IH by (intros H; apply U37; right; exact H). reflexivity.
Qed.
Example C105_ex : let s := text "a%20b%2Fc"%string in ~ In 0 s /\ percent s = text "a b/c"%string /\ ~ In 37 (percent s) /\ ~ In 0 (percent s).
Proof. cbv. repeat split; intuition discriminate. Qed.

(** ** C106 *)
(** The arguments of a request are all there, with their values, if every argument has a value, the names differ and have at most 255
    characters, and no name or value has a & or = in it.
    Missing: arguments without a value, values with = (refuted below). *)
Theorem C106_args_partial : forall args, args <> [] -> Forall (fun e => plain (fst e) /\ plain (snd e)) args ->
  NoDup (map fst args) -> Forall (fun e => (length (fst e) <= 255)%nat) args -> query_args (query args) = args.
Proof. intros args N P D L. unfold query_args. rewrite pairs_query by assumption. exact (insert_all _ args [] D L). Qed.
Example C106_ex : let args := [(text "a"%string, text "1"%string); (text "b"%string, [])] in
  query args = text "a=1&b="%string /\ Forall (fun e => plain (fst e) /\ plain (snd e)) args /\ NoDup (map fst args).
Proof. split; [reflexivity|]. split; [repeat (constructor; cbn); discriminate|]. repeat constructor; cbn; intuition discriminate. Qed.
(** C106 fails: an argument without a value takes the name of the next one as its value, and the next one is lost; *)
Theorem C106_flag_refuted : forall a k v, plain a -> plain k -> plain v -> (length a <= 255)%nat ->
  query_args (a ++ 38 :: k ++ 61 :: v) = [(a, k)].
Proof.
  intros a k v Pa Pk Pv L. unfold query_args. rewrite tokens_sep by (tauto || left; reflexivity). rewrite tokens_sep by (tauto || right; reflexivity). rewrite tokens_end by exact Pv.
  cbn [pairs fold_left]. unfold insert_str. cbn [find_str find fst snd app]. rewrite firstn_all2 by lia. reflexivity.
Qed.
(** a value that ends with = (as in base64) loses the next argument *)
Theorem C106_equals_refuted : forall k v q w, k <> [] -> plain k -> plain v -> plain q -> plain w -> (length k <= 255)%nat ->
  query_args (k ++ 61 :: v ++ 61 :: 38 :: q ++ 61 :: w) = [(k, v); ([], q)].
Proof.
  intros k v q w Nk Pk Pv Pq Pw L. unfold query_args. rewrite tokens_sep by (tauto || right; reflexivity). rewrite tokens_sep by (tauto || right; reflexivity).
  replace (tokens (38 :: q ++ 61 :: w)) with ([] :: tokens (q ++ 61 :: w)) by reflexivity. rewrite tokens_sep by (tauto || right; reflexivity). rewrite tokens_end by exact Pw.
  cbn [pairs fold_left fst snd]. unfold insert_str at 2. unfold find_str at 1. cbn [find fst app]. rewrite firstn_all2 by lia.
  unfold insert_str, find_str. cbn [find fst]. destruct (list_eq_dec Z.eq_dec k []); [contradiction|]. reflexivity.
Qed.

(** ** C107 *)
(** A request is answered by the callback registered (first) for its method and path, and by no other.
    Missing: paths of more than 124 characters (refuted below). *)
Theorem C107_dispatch_partial : forall rs m p, Forall (fun r => short (fst (fst r)) (snd (fst r))) rs -> short m p ->
  (forall cb, dispatch (add_callbacks rs) m (47 :: p) = Done (Called cb) <-> registered rs m p = Some cb) /\
  (registered rs m p = None -> m <> 0 -> dispatch (add_callbacks rs) m (47 :: p) = Done NotImplemented).
Proof.
  intros rs m p H Sh. unfold dispatch. cbn [tl]. unfold add_callbacks. rewrite (find_added m p Sh rs [] H). change (find_str [] (hook_key m p)) with (@None nat).
  destruct (registered rs m p) as [c|].
  - split; [|discriminate]. intros cb. split; intros E; [congruence|congruence].
  - split.
    + intros cb. split; [|discriminate]. destruct (m =? 0); [|discriminate]. destruct (print_all _ 0 []); cbn [rbind]; discriminate.
    + intros _ N. rewrite (proj2 (Z.eqb_neq _ _) N). reflexivity.
Qed.
Example C107_ex : let rs := [(0, text "sysinfo"%string, 5%nat); (1, text "sysinfo"%string, 6%nat); (0, text "sysinfo"%string, 7%nat)] in
  Forall (fun r => short (fst (fst r)) (snd (fst r))) rs /\ registered rs 0 (text "sysinfo"%string) = Some 5%nat /\ registered rs 1 (text "sysinfo"%string) = Some 6%nat /\ registered rs 0 (text "x"%string) = None.
Proof. repeat split; repeat constructor; cbn; lia. Qed.
(** C107 fails: paths that agree in their first 126 characters have the same callback *)
Theorem C107_long_refuted : forall m p a b cb, 0 <= m < 100 -> (126 <= length p)%nat ->
  dispatch (add_callbacks [(m, p ++ a, cb)]) m (47 :: p ++ b) = Done (Called cb).
Proof.
  intros m p a b cb Hm L. assert (K : forall t, hook_key m (p ++ t) = firstn 127 (unsigned 3 m ++ 58 :: p)).
  { intros t. unfold hook_key. change (58 :: p ++ t) with ((58 :: p) ++ t). rewrite app_assoc, firstn_app. replace (127 - _)%nat with 0%nat by (rewrite app_length; cbn [length]; pose proof (method_short m Hm); lia).
    cbn [firstn]. rewrite app_nil_r. reflexivity. }
  unfold dispatch, add_callbacks. cbn [tl fold_left add_callback]. unfold insert_str. change (@find_str nat [] (hook_key m (p ++ a))) with (@None nat). cbv iota. cbn [app]. rewrite !K.
  rewrite (firstn_all2 (n := 255)) by (rewrite firstn_length; lia). unfold find_str. cbn [find fst]. destruct (list_eq_dec Z.eq_dec _ _); [reflexivity|contradiction].
Qed.
(** A request for a path that is not known is answered with a text that names all paths as long as this text is short. *)
Theorem C107_not_found_partial : forall hooks p, find_str hooks (hook_key 0 p) = None -> listed hooks <= 7808 -> exists body, dispatch hooks 0 (47 :: p) = Done (NotFound body).
Proof.
  intros hooks p F L. unfold dispatch. cbn [tl]. rewrite F. cbn [Z.eqb]. destruct (total_pieces hooks (hook_key 0 p)) as [-> T].
  match goal with |- context [print_all (?ps ++ [?l])] => pose proof (print_fits l ps 0 []) as X end. rewrite T in X. pose proof (key_length 0 p).
  destruct (Z.ltb_spec 8000 (0 + (65 + Z.of_nat (length (hook_key 0 p)) + listed hooks))); [lia|]. destruct X as [b ->]. exists b. reflexivity.
Qed.
(** C107 fails: with more or longer paths registered any request for an unknown path writes behind the end of the stack buffer *)
Theorem C107_not_found_refuted : forall hooks p, find_str hooks (hook_key 0 p) = None -> 7935 < listed hooks -> dispatch hooks 0 (47 :: p) = Undef.
Proof.
  intros hooks p F L. unfold dispatch. cbn [tl]. rewrite F. cbn [Z.eqb]. destruct (total_pieces hooks (hook_key 0 p)) as [-> T].
  match goal with |- context [print_all (?ps ++ [?l])] => pose proof (print_fits l ps 0 []) as X end. rewrite T in X.
  destruct (Z.ltb_spec 8000 (0 + (65 + Z.of_nat (length (hook_key 0 p)) + listed hooks))); [|lia]. rewrite X. reflexivity.
Qed.
Example C107_not_found_ex : let few := add_callbacks [(0, text "sysinfo"%string, 5%nat)] in
  let many := add_callbacks (map (fun i => (0, repeat 97 100 ++ digits 2 (Z.of_nat i), i)) (seq 0 80)) in
  listed few <= 7808 /\ 7935 < listed many /\ find_str many (hook_key 0 [98]) = None.
Proof. vm_compute. repeat split; discriminate. Qed.
(** The number sent for a status is the one of HTTP, except for two *)
Theorem C107_status_partial : forall s, s <> ACCEPTED -> s <> CREATED -> sent_code (index s) = Done (http_number s).
Proof. intros [] H1 H2; try reflexivity; contradiction. Qed.
(** C107 fails: "created" is sent as "accepted" and the other way round *)
Theorem C107_status_refuted : sent_code (index CREATED) = Done (http_number ACCEPTED) /\ sent_code (index ACCEPTED) = Done (http_number CREATED).
Proof. split; reflexivity. Qed.

Print Assumptions C105_decoded_partial.
Print Assumptions C105_terminates.
Print Assumptions C105_safe.
Print Assumptions C105_junk_refuted.
Print Assumptions C105_twice_refuted.
Print Assumptions C105_nul_refuted.
Print Assumptions C106_args_partial.
Print Assumptions C106_flag_refuted.
Print Assumptions C106_equals_refuted.
Print Assumptions C107_dispatch_partial.
Print Assumptions C107_long_refuted.
Print Assumptions C107_not_found_partial.
Print Assumptions C107_not_found_refuted.
Print Assumptions C107_status_partial.
Print Assumptions C107_status_refuted.
