(** Claims about addresses: C64 (np_get_address), C65 (np_listen), C66 (np_join), C67 (which
    peers count as reachable). *)
From Coq Require Import String Ascii.
From Verif Require Import Base Dhkey_Model Dhkey_Proofs Address_Model Address_Spec Address_Proofs.
From Coq Require Import List.
Open Scope Z_scope.
Open Scope list_scope.

(** A machine with the addresses 10.0.0.1, 10.0.0.12, 192.0.2.7 and localhost.  Later tokens get
    smaller fingerprints. *)
Definition ex_local (host : list Z) (p : Z) : option (list Z) :=
  if streq host (text "localhost") then Some (text "127.0.0.1")
  else if existsb (streq host) [text "10.0.0.1"; text "10.0.0.12"; text "192.0.2.7"] then Some host
  else None.
Definition ex_env (out : list Z) : env :=
  Env ex_local (fun h _ => h) (fun _ _ => Some out) ipv4_text (fun _ => None)
      (fun n _ => repeat (9 - Z.of_nat n) 8) (fun _ => true) (fun s => repeat (Z.of_nat (length s)) 8).
Definition ex_key : key := repeat 305419896 8.
Definition ex_id : key := repeat 7 8.

Lemma ex_os out : os_ok (ex_env out).
Proof.
  intros host p ip. cbn [local_ip ex_env]. unfold ex_local.
  destruct (streq host (text "localhost")); [intros H; inversion H; cbn; lia|].
  destruct (existsb (streq host) [text "10.0.0.1"; text "10.0.0.12"; text "192.0.2.7"]) eqn:X; [|discriminate].
  intros H. inversion H; subst. apply existsb_exists in X. destruct X as [y [I Q]].
  apply streq_eq in Q. subst y. cbn [In] in I.
  destruct I as [<-|[<-|[<-|[]]]]; cbn; lia.
Qed.

Lemma ex_inet out : inet_ok (ex_env out).
Proof. intros s a H. apply ipv4_text_ok. exact H. Qed.

Lemma ex_key_wf : wf_key ex_key.
Proof. split; [reflexivity|]. unfold ex_key. cbn. repeat constructor; unfold is_word; lia. Qed.

(** * C64: the address of a node *)

(** An address made of a fingerprint (64 hexadecimal digits, not all zero), a protocol name, a
    host of at most 40 characters (also with colons, as for IPv6) and a port of at most five
    characters is read as exactly these four parts. *)
Theorem C64_round_trip : forall fpr proto p host port,
  fingerprint_text fpr -> not_all_zero fpr -> In (proto, p) protocols ->
  (length host <= 40)%nat -> (length port <= 5)%nat -> ~ In 58 port ->
  node_decode_from_str (address_text fpr proto host port) = Ok (Some (Node fpr p host port)).
Proof. exact decode_text. Qed.

Example C64_round_trip_ex :
  node_decode_from_str (address_text (np_dhkey_str ex_key) (text "udp6") (text "2001:db8::17") (text "31415"))
  = Ok (Some (Node (np_dhkey_str ex_key) 20 (text "2001:db8::17") (text "31415"))).
Proof.
  apply C64_round_trip.
  - apply str_fingerprint; [apply ex_key_wf | discriminate].
  - apply str_fingerprint; [apply ex_key_wf | discriminate].
  - do 5 right; left; reflexivity.
  - cbn; lia.
  - cbn; lia.
  - cbn. intuition discriminate.
Qed.

(** Whatever a program does, np_get_address delivers the own fingerprint and protocol, address
    and port of the first request to listen that could be met; the text is read by np_join as
    these parts.  Partial: no other address of the machine may start with the text of the first. *)
Theorem C64_get_address_partial : forall E nk ik h c p name ip port max,
  os_ok E -> wf_key nk -> ports_ok h ->
  run E (new_ctx nk ik) h = Ok c ->
  first_asked E h p ip port -> In (name, p) protocols ->
  (forall host q ip', local_ip E host q = Some ip' -> prefix_of ip ip' -> ip' = ip) ->
  exists portt, decimal_text portt port /\
    let a := address_text (np_dhkey_str nk) name ip portt in
    ((length a <= max)%nat -> np_get_address c max = Ok (0, Some (a ++ repeat 0 (max - length a)))) /\
    ((max < length a)%nat -> np_get_address c max = Ok (5, None)) /\
    (nk <> dhkey_min ->
       node_decode_from_str a = Ok (Some (Node (np_dhkey_str nk) p ip portt)) /\
       np_dhkey_create_from_hash (np_dhkey_str nk) = nk).
Proof.
  intros E nk ik h c p name ip port max OS W PO R FA PN U.
  destruct (run_first E nk ik h c p ip port OS W PO R FA) as [B [L PR]].
  destruct (decimal_ok port PR) as [D1 [D2 D3]].
  exists (decimal port). split; auto.
  assert (U' : forall ip', on_machine E ip' -> prefix_of ip ip' -> ip' = ip)
    by (intros ip' [host [q Q]] X; eapply U; eauto).
  destruct (bound_find _ _ _ _ _ _ B L U') as [e [F N]].
  assert (G : forall m, np_get_address c m =
     let a := address_text (np_dhkey_str nk) name ip (decimal port) in
     if Nat.ltb m (length a) then Ok (np_invalid_argument, None)
     else Ok (np_ok, Some (a ++ repeat 0 (m - length a)))).
  { intros m. unfold np_get_address, find_main_interface. rewrite (bound_names _ _ _ _ _ _ B), F.
    cbn [obind]. rewrite N. unfold connection_string. cbn [n_key n_proto n_ip n_port].
    rewrite (protocol_string_name _ _ PN). reflexivity. }
  cbv zeta. split; [|split].
  - intros H. rewrite G. cbv zeta. rewrite (proj2 (Nat.ltb_ge _ _) H). reflexivity.
  - intros H. rewrite G. cbv zeta. rewrite (proj2 (Nat.ltb_lt _ _) H). reflexivity.
  - intros NZ. destruct (str_fingerprint nk W NZ) as [F1 F2]. split; [|apply str_roundtrip; auto].
    apply decode_text; auto.
Qed.

Example C64_get_address_ex :
  let E := ex_env (text "10.0.0.1") in
  let h := [Listen (text "udp4") (text "nowhere") 3333; Listen (text "udp4") (text "192.0.2.7") 3141; Run;
            Listen (text "tcp4") (text "10.0.0.12") 7000] in
  exists c, run E (new_ctx ex_key ex_id) h = Ok c /\ first_asked E h 18 (text "192.0.2.7") 3141 /\
    np_get_address c 100 = Ok (0, Some (address_text (np_dhkey_str ex_key) (text "udp4") (text "192.0.2.7") (text "3141")
                                         ++ repeat 0 16)).
Proof.
  cbv zeta. eexists. split; [vm_compute; reflexivity|]. split; [|vm_compute; reflexivity].
  exists [Listen (text "udp4") (text "nowhere") 3333], (Listen (text "udp4") (text "192.0.2.7") 3141). eexists.
  split; [reflexivity|]. split.
  - split; [right; right; right; right; left; reflexivity|]. split; reflexivity.
  - intros k' p' ip' port' [<-|[]] [_ [A _]]. discriminate.
Qed.

(** With a second interface whose address continues the text of the first one the wrong address
    may be reported. *)
Theorem C64_other_interface_refuted :
  exists E nk ik h c p ip port,
    os_ok E /\ wf_key nk /\ ports_ok h /\ run E (new_ctx nk ik) h = Ok c /\
    first_asked E h p ip port /\
    np_get_address c 100 =
      Ok (0, Some (address_text (np_dhkey_str nk) (text "udp4") (text "10.0.0.12") (text "4000") ++ repeat 0 16)) /\
    ip = text "10.0.0.1" /\ port = 3141.
Proof.
  exists (ex_env (text "10.0.0.1")), ex_key, ex_id,
    [Listen (text "udp4") (text "10.0.0.1") 3141; Listen (text "udp4") (text "10.0.0.12") 4000].
  eexists. exists 18, (text "10.0.0.1"), 3141.
  split; [apply ex_os|]. split; [apply ex_key_wf|]. split.
  { intros pr host o [H|[H|[]]]; inversion H; lia. }
  split; [vm_compute; reflexivity|]. split.
  { exists []. eexists. eexists. split; [reflexivity|]. split.
    - split; [right; right; right; right; left; reflexivity|]. split; reflexivity.
    - intros k' p' ip' port' []. }
  split; [vm_compute; reflexivity|]. auto.
Qed.

(** A buffer that is exactly as long as the address: np_ok, and no terminator is written. *)
Theorem C64_unterminated_refuted :
  exists E nk ik h c max buffer,
    os_ok E /\ run E (new_ctx nk ik) h = Ok c /\
    np_get_address c max = Ok (0, Some buffer) /\ length buffer = max /\ ~ In 0 buffer.
Proof.
  exists (ex_env (text "10.0.0.1")), ex_key, ex_id, [Listen (text "udp4") (text "192.0.2.7") 3141].
  eexists. exists 84%nat. eexists. split; [apply ex_os|]. split; [vm_compute; reflexivity|].
  split; [vm_compute; reflexivity|]. split; [reflexivity|]. cbn. intuition discriminate.
Qed.

(** * C65: listening *)

(** Every listening socket belongs to a call of np_listen with this protocol, a host that stands
    for this address of the machine, and this port; none is opened by np_run or np_join. *)
Theorem C65_only_asked : forall E nk ik h c p ip portt,
  os_ok E -> wf_key nk -> ports_ok h -> run E (new_ctx nk ik) h = Ok c ->
  In (p, ip, portt) (sockets c) ->
  exists pr host port, In (Listen pr host port) h /\ names pr p /\
    local_ip E (firstn 255 host) p = Some ip /\ decimal_text portt port.
Proof.
  intros E nk ik h c p ip portt OS W PO R I.
  assert (F : from_calls E [] (new_ctx nk ik)) by (intros a b d []).
  pose proof (run_sockets E nk h [] (new_ctx nk ik) c OS W eq_refl PO F R) as FC. cbn [app] in FC.
  destruct (FC _ _ _ I) as [pr [host [o [I2 [N [LI [-> _]]]]]]].
  exists pr, host, o. split; auto. split; auto. split; auto.
  apply decimal_ok. apply (PO _ _ _ I2).
Qed.

(** Partial: a call that succeeds opens the socket if the protocol is not passive, the address is
    not already the main one, and the operating system lets the port be used. *)
Theorem C65_listens_partial : forall E c protocol host port p ip,
  os_ok E -> wf_key (me c) -> 0 <= port < 65536 ->
  names protocol p -> p < 256 -> local_ip E (firstn 255 host) p = Some ip ->
  (forall m, main_ip c = Some m -> (length m <= 50)%nat /\ m <> ip) ->
  bind_ok E (made c) = true ->
  exists c' portt, np_listen E c protocol host port = Ok (0, c') /\
    decimal_text portt port /\ In (p, ip, portt) (sockets c').
Proof.
  intros E c protocol host port p ip OS W PO N PA LI M BO. unfold np_listen.
  destruct (listen_cases E c (firstn 5 protocol) (firstn 255 host) (decimal port) _ OS W
             (port_decimal _ PO) eq_refl)
    as [[Q X]|[p' [ip' [Hn [LI' [[m [M1 [F Q]]]|[F Q]]]]]]].
  - exfalso. apply (X p ip); [apply names_firstn5; auto|]. rewrite firstn_firstn. exact LI.
  - exfalso. apply (proj1 (names_firstn5 _ _)) in Hn. pose proof (names_unique _ _ _ Hn N). subst p'.
    rewrite firstn_firstn in LI'. change (Nat.min 255 255) with 255%nat in LI'.
    assert (ip' = ip) by congruence. subst ip'. pose proof (OS _ _ _ LI).
    destruct (M m M1) as [L D]. rewrite !firstn_all2 in F by lia. auto.
  - apply (proj1 (names_firstn5 _ _)) in Hn. pose proof (names_unique _ _ _ Hn N). subst p'.
    rewrite firstn_firstn in LI'. change (Nat.min 255 255) with 255%nat in LI'.
    assert (ip' = ip) by congruence. subst ip'.
    eexists. exists (decimal port). split; [exact Q|]. split; [apply decimal_ok; auto|].
    cbn [sockets]. rewrite BO.
    assert (PF : flag p PASSIVE = false).
    { unfold names, protocols in N. cbn [In] in N.
      repeat (destruct N as [N|N]; [inversion N; subst; first [reflexivity | lia]|]). destruct N. }
    rewrite PF. left. reflexivity.
Qed.

Example C65_listens_ex :
  exists c', np_listen (ex_env []) (new_ctx ex_key ex_id) (text "tcp4") (text "10.0.0.12") 443 = Ok (0, c') /\
             sockets c' = [(34, text "10.0.0.12", text "443")].
Proof. eexists. split; vm_compute; reflexivity. Qed.

(** A second port on the first address: np_ok, and nothing listens there. *)
Theorem C65_second_port_refuted :
  exists E nk ik c c',
    os_ok E /\ wf_key nk /\
    run E (new_ctx nk ik) [Listen (text "udp4") (text "10.0.0.1") 3141] = Ok c /\
    np_listen E c (text "tcp4") (text "10.0.0.1") 443 = Ok (0, c') /\
    sockets c' = [(18, text "10.0.0.1", text "3141")].
Proof.
  exists (ex_env []), ex_key, ex_id. eexists. eexists. split; [apply ex_os|]. split; [apply ex_key_wf|].
  split; [vm_compute; reflexivity|]. split; vm_compute; reflexivity.
Qed.

(** The port is in use by someone else: np_ok, and nothing listens. *)
Theorem C65_not_bound_refuted :
  exists E nk ik c',
    os_ok E /\ wf_key nk /\ bind_ok E 0 = false /\
    np_listen E (new_ctx nk ik) (text "udp4") (text "10.0.0.1") 3141 = Ok (0, c') /\ sockets c' = [].
Proof.
  exists (Env ex_local (fun h _ => h) (fun _ _ => None) ipv4_text (fun _ => None)
      (fun n _ => repeat (9 - Z.of_nat n) 8) (fun _ => false) (fun s => repeat 1 8)), ex_key, ex_id.
  eexists. split; [exact (ex_os [])|]. split; [apply ex_key_wf|]. split; [reflexivity|].
  split; vm_compute; reflexivity.
Qed.

(** Port 0 does not stand for the documented default 3141. *)
Theorem C65_default_port_refuted :
  exists E nk ik c',
    os_ok E /\ wf_key nk /\
    np_listen E (new_ctx nk ik) (text "udp4") (text "10.0.0.1") 0 = Ok (0, c') /\
    sockets c' = [(18, text "10.0.0.1", text "0")].
Proof.
  exists (ex_env []), ex_key, ex_id. eexists. split; [apply ex_os|]. split; [apply ex_key_wf|].
  split; vm_compute; reflexivity.
Qed.

(** * C66: joining *)

(** Partial: a well-formed address leads to a join of exactly the named node, if no known node
    looks alike and the peer counts as reachable. *)
Theorem C66_join_partial : forall E c fpr proto p host port,
  running c = true -> fingerprint_text fpr -> not_all_zero fpr -> In (proto, p) active_protocols ->
  (length host <= 40)%nat -> (length port <= 5)%nat -> ~ In 58 port ->
  no_lookalike c (firstn 64 (remote_ip E host p)) port ->
  can_be_reached E c (firstn 64 (remote_ip E host p)) p = Ok true ->
  np_join E c (Some (address_text fpr proto host port)) =
    Ok (0, c, Some (np_dhkey_create_from_hash fpr, Node fpr p (firstn 64 (remote_ip E host p)) port)).
Proof. intros. apply join_text; auto. Qed.

Definition ex_run (out : list Z) (es : list entry) : outcome ctx :=
  run (ex_env out) (new_ctx ex_key ex_id)
      [Listen (text "udp4") (text "192.0.2.7") 3141; Listen (text "udp4") (text "10.0.0.1") 3141; Run; Others es].
Definition ex_ctx (out : list Z) (es : list entry) : ctx :=
  match ex_run out es with Ok c => c | _ => new_ctx ex_key ex_id end.
Definition ex_peer : list Z := np_dhkey_str (repeat 2882400001 8).

Example C66_join_ex :
  exists c, ex_run (text "192.0.2.7") [] = Ok c /\ running c = true /\
    no_lookalike c (text "198.51.100.4") (text "31415") /\
    can_be_reached (ex_env (text "192.0.2.7")) c (text "198.51.100.4") 18 = Ok true /\
    np_join (ex_env (text "192.0.2.7")) c
      (Some (address_text ex_peer (text "udp4") (text "198.51.100.4") (text "31415"))) =
    Ok (0, c, Some (repeat 2882400001 8, Node ex_peer 18 (text "198.51.100.4") (text "31415"))).
Proof.
  eexists. split; [vm_compute; reflexivity|]. split; [reflexivity|]. split.
  { intros e n I T. cbn in I. destruct I as [<-|[<-|[]]]; cbn in T; lia. }
  split; vm_compute; reflexivity.
Qed.

(** A join is only started towards what the address says: the first four characters of its
    protocol, the first 40 of its host, the first five of its port, and the node with its
    fingerprint - or any node at that place, if it does not start with a fingerprint. *)
Theorem C66_only_named_partial : forall E c addr r c' k n,
  np_join E c (Some addr) = Ok (r, c', Some (k, n)) -> (length addr <= 255)%nat ->
  exists fpr pr host port p,
    addr = address_text fpr pr host port /\ ~ In 58 fpr /\ ~ In 58 pr /\ ~ In 58 port /\
    In (firstn 4 pr, p) active_protocols /\ n_proto n = p /\
    n_ip n = firstn 64 (remote_ip E (firstn 40 host) p) /\ n_port n = firstn 5 port /\
    (pinned fpr -> k = np_dhkey_create_from_hash fpr /\ n_key n = firstn 64 fpr) /\
    (~ pinned fpr ->
       k = hash E (firstn 254 (address_text (text "*") (firstn 4 pr) (n_ip n) (n_port n))) /\
       n_key n = text "*").
Proof. exact join_inv. Qed.

(** Calls that end without a join. *)
Theorem C66_refused : forall E c,
  np_join E c None = Ok (5, c, None) /\
  (forall s, (length s <= 10)%nat \/ (500 <= length s)%nat -> np_join E c (Some s) = Ok (5, c, None)) /\
  (forall s, (10 < length s < 500)%nat -> running c = false -> np_join E c (Some s) = Ok (6, c, None)).
Proof.
  intros E c. split; [reflexivity|]. split.
  - intros s [H|H]; unfold np_join.
    + rewrite (proj2 (Nat.leb_le _ _) H). reflexivity.
    + destruct (Nat.leb (length s) 10); [reflexivity|]. rewrite (proj2 (Nat.leb_le _ _) H). reflexivity.
  - intros s H R. unfold np_join.
    replace (Nat.leb (length s) 10) with false by (symmetry; apply Nat.leb_gt; lia).
    replace (Nat.leb 500 (length s)) with false by (symmetry; apply Nat.leb_gt; lia).
    rewrite R. reflexivity.
Qed.

(** One wrong character in the fingerprint: the join goes to any node at this place. *)
Theorem C66_typo_refuted :
  exists E c k n, inet_ok E /\ running c = true /\
    np_join E c (Some (address_text (text "g" ++ skipn 1 ex_peer) (text "udp4") (text "198.51.100.4") (text "31415")))
      = Ok (0, c, Some (k, n)) /\ n_key n = text "*" /\
    k = hash E (text "*:udp4:198.51.100.4:31415").
Proof.
  exists (ex_env (text "192.0.2.7")), (ex_ctx (text "192.0.2.7") []). eexists. eexists. split; [apply ex_inet|].
  split; [|split; [vm_compute; reflexivity|split; vm_compute; reflexivity]]. reflexivity.
Qed.

(** An address that cannot be read, or names a passive node: np_ok, nothing happens. *)
Theorem C66_malformed_refuted :
  exists E c, running c = true /\
    (forall s, In s [text "this is not an address"; text "udp4:198.51.100.4:31415";
                     address_text ex_peer (text "sctp") (text "198.51.100.4") (text "31415");
                     address_text ex_peer (text "pas4") (text "198.51.100.4") (text "31415")] ->
       np_join E c (Some s) = Ok (0, c, None)).
Proof.
  exists (ex_env (text "192.0.2.7")), (ex_ctx (text "192.0.2.7") []). split; [reflexivity|].
  intros s [<-|[<-|[<-|[<-|[]]]]]; vm_compute; reflexivity.
Qed.

(** A known node 198.51.100.4, port 3141, keeps the node 198.51.100.45, port 31415, from being
    joined: np_ok, nothing happens. *)
Theorem C66_lookalike_refuted :
  exists E c e, running c = true /\ others c = [e] /\
    is_node_at e (text "198.51.100.4") (text "3141") /\
    can_be_reached E c (text "198.51.100.45") 18 = Ok true /\
    np_join E c (Some (address_text ex_peer (text "udp4") (text "198.51.100.45") (text "31415")))
      = Ok (0, c, None).
Proof.
  pose (e := Entry (repeat 77 8) 4 (Some (Node (np_dhkey_str (repeat 77 8)) 18 (text "198.51.100.4") (text "3141")))).
  exists (ex_env (text "192.0.2.7")), (ex_ctx (text "192.0.2.7") [e]), e. split; [|split; [reflexivity|]]; [reflexivity|].
  split; [split; [reflexivity|]; eexists; split; [reflexivity|]; split; reflexivity|].
  split; vm_compute; reflexivity.
Qed.

(** A host name of more than 40 characters is cut: another host is asked for. *)
Theorem C66_long_host_refuted :
  exists E c n k host, running c = true /\ length host = 50%nat /\
    np_join E c (Some (address_text ex_peer (text "udp4") host (text "31415"))) = Ok (0, c, Some (k, n)) /\
    n_ip n = remote_ip E (firstn 40 host) 18 /\ remote_ip E (firstn 40 host) 18 <> remote_ip E host 18.
Proof.
  pose (E := Env ex_local (fun h _ => if Nat.eqb (length h) 50 then text "198.51.100.4" else text "203.0.113.66")
               (fun _ _ => Some (text "192.0.2.7")) ipv4_text (fun _ => None)
               (fun n _ => repeat (9 - Z.of_nat n) 8) (fun _ => true) (fun s => repeat 1 8)).
  exists E, (match run E (new_ctx ex_key ex_id) [Listen (text "udp4") (text "192.0.2.7") 3141; Run]
             with Ok c => c | _ => new_ctx ex_key ex_id end).
  eexists. eexists. exists (text "bootstrap.neuropil-node.department.example.com.org").
  split; [|split; [reflexivity|split; [vm_compute; reflexivity|split; [vm_compute; reflexivity|vm_compute; discriminate]]]].
  reflexivity.
Qed.

(** Without a usable address (np_run could not listen either) np_join ends the program. *)
Theorem C66_no_interface_refuted :
  exists E nk ik c, wf_key nk /\ run E (new_ctx nk ik) [Run] = Ok c /\ running c = true /\
    np_join E c (Some (address_text ex_peer (text "udp4") (text "198.51.100.4") (text "31415"))) = Abort.
Proof.
  exists (Env (fun _ _ => None) (fun h _ => h) (fun _ _ => None) ipv4_text (fun _ => None)
             (fun n _ => repeat 9 8) (fun _ => true) (fun s => repeat 1 8)), ex_key, ex_id.
  eexists. split; [apply ex_key_wf|]. split; [vm_compute; reflexivity|].
  split; [reflexivity|]. vm_compute; reflexivity.
Qed.

(** * C67: reachable peers *)

(** For every two addresses, IPv4 or IPv6, that are not the same private IPv4 address:
    private and private: reachable exactly within the same private network;
    public and public: reachable;
    own one private, peer public: reachable exactly if the interface, or the main interface, is
    passive for the IP version;
    own one public, peer private: not reachable, unless the interface is localhost and passive. *)
Theorem C67_decision_partial : forall E c rip p n m a b,
  inet_ok E -> inet6_ok E -> chosen_node E c rip p n -> main_node c m ->
  reads E (n_ip n) a -> reads E rip b ->
  (forall k, a = V4 k -> b = V4 k -> private_net a = None) ->
  let passive x := flag (n_proto x) (Z.lor 256 (Z.land 15 p)) in
  exists r, can_be_reached E c rip p = Ok r /\
    (forall x y, private_net a = Some x -> private_net b = Some y -> (r = true <-> x = y)) /\
    (private_net a = None -> private_net b = None -> r = true) /\
    (private_net a <> None -> private_net b = None -> r = passive n || passive m) /\
    (private_net a = None -> private_net b <> None -> loopback_text (n_ip n) -> r = passive n) /\
    (private_net a = None -> private_net b <> None -> ~ loopback_text (n_ip n) -> r = false).
Proof.
  intros E c rip p n m a b I I6 C M R1 R2 N passive. rewrite (reach_decide E c rip p n m C M).
  destruct (private_net a) as [x|] eqn:A; destruct (private_net b) as [y|] eqn:B.
  - destruct (decide_private E n m rip p a b x y I I6 R1 R2 A B) as [r [D K]].
    { intros k Q1 Q2. specialize (N k Q1 Q2). discriminate. }
    exists r. split; auto. split; [|repeat split; congruence].
    intros x' y' Q1 Q2. inversion Q1; inversion Q2; subst. auto.
  - eexists. split; [apply (decide_outward E n m rip p a b); auto; congruence|].
    repeat split; congruence.
  - destruct (decide_inward E n m rip p a b I I6 R1 R2 A) as [D1 D2]; [congruence|].
    destruct (is_loopback (n_ip n)) eqn:L.
    + pose proof (proj1 (loopback_text_spec _) L) as LT. eexists. split; [apply D1; auto|].
      split; [congruence|]. split; [congruence|]. split; [congruence|]. split; [reflexivity|contradiction].
    + assert (LT : ~ loopback_text (n_ip n)) by (intros X; apply loopback_text_spec in X; congruence).
      eexists. split; [apply D2; auto|].
      split; [congruence|]. split; [congruence|]. split; [congruence|]. split; [contradiction|reflexivity].
  - exists true. split; [apply (decide_public E n m rip p a b); auto|]. repeat split; congruence.
Qed.

Example C67_decision_ex :
  let E := ex_env (text "10.0.0.1") in
  exists c n m a b, ex_run (text "10.0.0.1") [] = Ok c /\
    chosen_node E c (text "10.200.3.4") 18 n /\ main_node c m /\
    reads E (n_ip n) (V4 a) /\ reads E (text "10.200.3.4") (V4 b) /\
    private_net (V4 a) = Some (Block 10) /\ private_net (V4 b) = Some (Block 10) /\ a <> b /\
    can_be_reached E c (text "10.200.3.4") 18 = Ok true /\
    can_be_reached E c (text "192.168.3.4") 18 = Ok false.
Proof.
  cbv zeta. eexists. exists (Node (np_dhkey_str ex_key) 18 (text "10.0.0.1") (text "3141")),
    (Node (np_dhkey_str ex_key) 18 (text "192.0.2.7") (text "3141")). eexists. eexists.
  split; [vm_compute; reflexivity|]. split.
  { left. split; [reflexivity|]. split; [cbn; lia|]. split.
    - eexists. split; [left; reflexivity|]. split; [reflexivity|]. vm_compute. reflexivity.
    - intros e n' I N [t T]. cbn in I. destruct I as [<-|[<-|[]]]; cbn in N; inversion N; subst; auto.
      cbn in T. discriminate. }
  split.
  { split; [reflexivity|]. split; [cbn; lia|]. split.
    - eexists. split; [right; left; reflexivity|]. split; [reflexivity|]. vm_compute. reflexivity.
    - intros e n' I N [t T]. cbn in I. destruct I as [<-|[<-|[]]]; cbn in N; inversion N; subst; auto.
      cbn in T. discriminate. }
  split; [vm_compute; reflexivity|]. split; [vm_compute; reflexivity|].
  split; [reflexivity|]. split; [reflexivity|]. split; [discriminate|]. split; vm_compute; reflexivity.
Qed.

(** IPv6: link local addresses; the node listens at fe80::1. *)
Definition ex6_pton (s : list Z) : option (list Z) :=
  if streq s (text "fe80::1") then Some ([254; 128] ++ repeat 0 13 ++ [1])
  else if streq s (text "fe80::2") then Some ([254; 128] ++ repeat 0 13 ++ [2])
  else if streq s (text "fd00::2") then Some ([253] ++ repeat 0 14 ++ [2])
  else None.
Definition ex6_env : env :=
  Env (fun h _ => if streq h (text "fe80::1") then Some h else None) (fun h _ => h)
      (fun _ _ => Some (text "fe80::1")) (fun _ => None) ex6_pton
      (fun n _ => repeat (9 - Z.of_nat n) 8) (fun _ => true) (fun s => repeat 1 8).
Example C67_decision6_ex :
  inet_ok ex6_env /\ inet6_ok ex6_env /\
  exists c n a b, run ex6_env (new_ctx ex_key ex_id) [Listen (text "udp6") (text "fe80::1") 3141; Run] = Ok c /\
    chosen_node ex6_env c (text "fe80::2") 20 n /\ main_node c n /\
    reads ex6_env (n_ip n) (V6 a) /\ reads ex6_env (text "fe80::2") (V6 b) /\
    private_net (V6 a) = Some (Group 254 128) /\ private_net (V6 b) = Some (Group 254 128) /\
    can_be_reached ex6_env c (text "fe80::2") 20 = Ok true /\
    can_be_reached ex6_env c (text "fd00::2") 20 = Ok false.
Proof.
  split; [intros s a H; discriminate|]. split.
  { intros s b. cbn [pton6 ex6_env]. unfold ex6_pton.
    assert (P : forall t, In t [text "fe80::1"; text "fe80::2"; text "fd00::2"] -> streq s t = true ->
      In 58 s /\ ~ prefix_of (text "::1") s /\ ~ prefix_of (text "127.0.0.1") s).
    { intros t I Q. apply streq_eq in Q. subst t.
      destruct I as [<-|[<-|[<-|[]]]]; (split; [cbn; tauto|split; intros [r R]; cbn in R; discriminate]). }
    destruct (streq s (text "fe80::1")) eqn:Q1; [|destruct (streq s (text "fe80::2")) eqn:Q2; [|destruct (streq s (text "fd00::2")) eqn:Q3; [|discriminate]]];
      intros H; inversion H; subst; (split; [reflexivity|]).
    - destruct (P _ (or_introl eq_refl) Q1) as [X [Y Z0]]. split; auto. split; [contradiction|auto].
    - destruct (P _ (or_intror (or_introl eq_refl)) Q2) as [X [Y Z0]]. split; auto. split; [contradiction|auto].
    - destruct (P _ (or_intror (or_intror (or_introl eq_refl))) Q3) as [X [Y Z0]]. split; auto. split; [contradiction|auto]. }
  eexists. exists (Node (np_dhkey_str ex_key) 20 (text "fe80::1") (text "3141")). eexists. eexists.
  split; [vm_compute; reflexivity|].
  assert (G : forall c, ifaces c = [Entry (repeat 9 8) 36 (Some (Node (np_dhkey_str ex_key) 20 (text "fe80::1") (text "3141")))] ->
     (exists e, In e (ifaces c) /\ e_type e = 36 /\ e_node e = Some (Node (np_dhkey_str ex_key) 20 (text "fe80::1") (text "3141"))) /\
     (forall e n', In e (ifaces c) -> e_node e = Some n' -> prefix_of (text "fe80::1") (n_ip n') ->
        n' = Node (np_dhkey_str ex_key) 20 (text "fe80::1") (text "3141"))).
  { intros c ->. split; [eexists; split; [left; reflexivity|split; reflexivity]|].
    intros e n' [<-|[]] N _. cbn [e_node] in N. congruence. }
  split; [left; split; [reflexivity|split; [cbn; lia|apply G; reflexivity]]|].
  split; [split; [reflexivity|split; [cbn; lia|apply G; reflexivity]]|].
  split; [split; vm_compute; reflexivity|]. split; [split; vm_compute; reflexivity|].
  split; [reflexivity|]. split; [reflexivity|]. split; vm_compute; reflexivity.
Qed.

(** A peer at the own private address (a second node on the same machine): undefined behaviour,
    whatever the rest of the state. *)
Theorem C67_same_address_refuted :
  (forall E c rip p n m a, inet_ok E -> chosen_node E c rip p n -> main_node c m ->
     pton4 E (n_ip n) = Some a -> pton4 E rip = Some a -> private_block a <> None ->
     can_be_reached E c rip p = UB) /\
  exists E c, inet_ok E /\ running c = true /\
    np_join E c (Some (address_text ex_peer (text "udp4") (text "10.0.0.1") (text "3142"))) = UB.
Proof.
  split.
  { intros E c rip p n m a I C M P1 P2 B. rewrite (reach_decide E c rip p n m C M). apply (decide_same E n m rip p a); auto. }
  exists (ex_env (text "10.0.0.1")), (ex_ctx (text "10.0.0.1") []). split; [apply ex_inet|]. split; [|vm_compute; reflexivity].
  reflexivity.
Qed.

(** The address 127.0.1.1 of the own machine counts as a public one. *)
Theorem C67_loopback_refuted :
  exists E c, inet_ok E /\ ex_run (text "192.0.2.7") [] = Ok c /\
    is_loopback (text "127.0.1.1") = false /\
    can_be_reached E c (text "127.0.1.1") 18 = Ok true.
Proof.
  exists (ex_env (text "192.0.2.7")). eexists. split; [apply ex_inet|].
  split; [vm_compute; reflexivity|]. split; vm_compute; reflexivity.
Qed.

Print Assumptions C64_round_trip.
Print Assumptions C64_get_address_partial.
Print Assumptions C64_other_interface_refuted.
Print Assumptions C64_unterminated_refuted.
Print Assumptions C65_only_asked.
Print Assumptions C65_listens_partial.
Print Assumptions C65_second_port_refuted.
Print Assumptions C65_not_bound_refuted.
Print Assumptions C65_default_port_refuted.
Print Assumptions C66_join_partial.
Print Assumptions C66_only_named_partial.
Print Assumptions C66_refused.
Print Assumptions C66_typo_refuted.
Print Assumptions C66_malformed_refuted.
Print Assumptions C66_lookalike_refuted.
Print Assumptions C66_long_host_refuted.
Print Assumptions C66_no_interface_refuted.
Print Assumptions C67_decision_partial.
Print Assumptions C67_same_address_refuted.
Print Assumptions C67_loopback_refuted.
