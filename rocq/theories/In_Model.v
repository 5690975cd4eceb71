(** Messages of the network itself, at the node they arrive at: the tokens in them (np_aaatoken_encode, np_aaatoken_decode in
    src/np_aaatoken.c, np_token_factory_read_from_tree in src/np_token_factory.c), the handlers of src/np_dendrit.c and
    the lists of nodes of src/np_node.c.
    A message body and a token are trees; a tree is the list of its entries (finding a key in it is C18).
    Not modelled: logging, reference counts, the work on a node after its entry in a list was read (np_dendrit.c:197-272). *)
From Verif Require Import Base Dhkey_Model Tree_Model Treeval_Model Wire_Model Data_Model Token_Model TokenData_Props.

(** *** Reading the union of a value *)
(** value.bin of a value, [n] bytes of it.  A text has a zero byte behind it.  Anything else is no address of bytes. *)
Definition bin (n : nat) (v : tval) : outcome (list Z) :=
  match v with
  | VBin b | VHash b => if (n <=? length b)%nat then Ok (firstn n b) else UB
  | VStr s => if (n <=? length s + 1)%nat then Ok (firstn n (s ++ [0])) else UB
  | _ => UB
  end.
(** as many bytes of it as it has, but no more than [n] *)
Definition bin_upto (n : nat) (v : tval) : outcome (list Z) :=
  match v with VBin b | VHash b | VStr b => Ok (firstn n b) | _ => UB end.
(** value.tree of a value *)
Definition tree_of (v : tval) : outcome (list (ukey * tval)) := match v with VTree _ l => Ok l | _ => UB end.
(** np_treeval.c:166-353 np_treeval_to_str: the text of a string is the string; of a single character, the address of the
    argument of the call, which is gone when it is used; of other kinds, a text made up for it ([shown]) *)
Definition to_str (shown : tval -> list Z) (v : tval) : outcome (list Z) :=
  match v with VStr s => Ok s | VChar _ => UB | _ => Ok (shown v) end.
(** What other kinds of values give when read as a number or a double is whatever is in the union. *)
Record puns := mkPuns { shown : tval -> list Z; as_byte : tval -> Z; as_double : tval -> Z }.
(** value.ush and value.d.  Times are non negative doubles, by their bits. *)
Definition ush (P : puns) (v : tval) : Z := match v with VUshort z => z | _ => as_byte P v end.
Definition dbl (P : puns) (v : tval) : Z := match v with VDouble (Some r) => if r <? 0 then as_double P v else r | _ => as_double P v end.

(** *** Tokens as trees *)
(** "np.t." *)
Definition np_t (l : list Z) : list Z := [110; 112; 46; 116; 46] ++ l.
Definition k_type := np_t [116; 121; 112; 101].
Definition k_uuid := np_t [117].
Definition k_realm := np_t [114].
Definition k_issuer := np_t [105].
Definition k_subject := np_t [115].
Definition k_audience := np_t [97].
Definition k_public := np_t [112].
Definition k_expires := np_t [101; 120].
Definition k_issued := np_t [105; 97].
Definition k_before := np_t [110; 98].
Definition k_signature := np_t [115; 105].
Definition k_extensions := np_t [101].
Definition k_ext_signature := np_t [115; 105; 101].

(** np_treeval.c:402-408 np_treeval_new_s on one of the buffers of a token: strlen runs past a buffer without a zero *)
Definition text_of (buf : list Z) : outcome tval := if existsb (Z.eqb 0) buf then Ok (VStr (until0 buf)) else UB.
(** np_aaatoken.c:149-152: the part of the attributes that is in use; nothing if the header of the block is damaged *)
Definition attributes_part (a : list Z) : outcome (list Z) :=
  let n := snd (np_get_data_size a) in if n <=? Z.of_nat (length a) then Ok (firstn (Z.to_nat n) a) else UB.
(** np_aaatoken.c:116-161 _np_aaatoken_encode: the calls on the tree, and the token with its attributes signed *)
Definition encode (C : crypto) (t : token) : outcome (token * list (op (V := tval))) :=
  obind (text_of (realm t)) (fun r => obind (text_of (issuer t)) (fun i => obind (text_of (subject t)) (fun s =>
  obind (text_of (audience t)) (fun a => obind (attributes_part (attributes t)) (fun e =>
  obind (if scope t <=? scope_private_available then update_attributes_signature C block_ops t else Ok t) (fun t' =>
  Ok (t', [Replace (UStr k_type) (VUshort (ttype t)); Replace (UStr k_uuid) (VBin (uuid t)); Replace (UStr k_realm) r;
           Replace (UStr k_issuer) i; Replace (UStr k_subject) s; Replace (UStr k_audience) a;
           Replace (UStr k_public) (VBin (pk t)); Replace (UStr k_expires) (VDouble (Some (expires_at t)));
           Replace (UStr k_issued) (VDouble (Some (issued_at t))); Replace (UStr k_before) (VDouble (Some (not_before t)));
           Replace (UStr k_signature) (VBin (signature t)); Replace (UStr k_extensions) (VBin e);
           Replace (UStr k_ext_signature) (VBin (attributes_signature t'))]))))))).

Definition put_uuid (t : token) x := mkTok x (realm t) (issuer t) (subject t) (audience t) (issued_at t) (not_before t) (expires_at t) (attributes t) (attributes_signature t) (pk t) (sk t) (signature t) (state t) (ttype t) (scope t) (private_key_is_set t) (sig_ok t) (attr_ok t) (issuer_ok t).
Definition put_type (t : token) x := mkTok (uuid t) (realm t) (issuer t) (subject t) (audience t) (issued_at t) (not_before t) (expires_at t) (attributes t) (attributes_signature t) (pk t) (sk t) (signature t) (state t) x (scope t) (private_key_is_set t) (sig_ok t) (attr_ok t) (issuer_ok t).
Definition put_realm (t : token) x := mkTok (uuid t) x (issuer t) (subject t) (audience t) (issued_at t) (not_before t) (expires_at t) (attributes t) (attributes_signature t) (pk t) (sk t) (signature t) (state t) (ttype t) (scope t) (private_key_is_set t) (sig_ok t) (attr_ok t) (issuer_ok t).
Definition put_issuer (t : token) x := mkTok (uuid t) (realm t) x (subject t) (audience t) (issued_at t) (not_before t) (expires_at t) (attributes t) (attributes_signature t) (pk t) (sk t) (signature t) (state t) (ttype t) (scope t) (private_key_is_set t) (sig_ok t) (attr_ok t) (issuer_ok t).
Definition put_subject (t : token) x := mkTok (uuid t) (realm t) (issuer t) x (audience t) (issued_at t) (not_before t) (expires_at t) (attributes t) (attributes_signature t) (pk t) (sk t) (signature t) (state t) (ttype t) (scope t) (private_key_is_set t) (sig_ok t) (attr_ok t) (issuer_ok t).
Definition put_audience (t : token) x := mkTok (uuid t) (realm t) (issuer t) (subject t) x (issued_at t) (not_before t) (expires_at t) (attributes t) (attributes_signature t) (pk t) (sk t) (signature t) (state t) (ttype t) (scope t) (private_key_is_set t) (sig_ok t) (attr_ok t) (issuer_ok t).
Definition put_issued (t : token) x := mkTok (uuid t) (realm t) (issuer t) (subject t) (audience t) x (not_before t) (expires_at t) (attributes t) (attributes_signature t) (pk t) (sk t) (signature t) (state t) (ttype t) (scope t) (private_key_is_set t) (sig_ok t) (attr_ok t) (issuer_ok t).
Definition put_before (t : token) x := mkTok (uuid t) (realm t) (issuer t) (subject t) (audience t) (issued_at t) x (expires_at t) (attributes t) (attributes_signature t) (pk t) (sk t) (signature t) (state t) (ttype t) (scope t) (private_key_is_set t) (sig_ok t) (attr_ok t) (issuer_ok t).
Definition put_expires (t : token) x := mkTok (uuid t) (realm t) (issuer t) (subject t) (audience t) (issued_at t) (not_before t) x (attributes t) (attributes_signature t) (pk t) (sk t) (signature t) (state t) (ttype t) (scope t) (private_key_is_set t) (sig_ok t) (attr_ok t) (issuer_ok t).
Definition put_public (t : token) x := mkTok (uuid t) (realm t) (issuer t) (subject t) (audience t) (issued_at t) (not_before t) (expires_at t) (attributes t) (attributes_signature t) x (sk t) (signature t) (state t) (ttype t) (scope t) (private_key_is_set t) (sig_ok t) (attr_ok t) (issuer_ok t).

(** memcpy to the begin of a buffer *)
Definition over (new old : list Z) : list Z := new ++ skipn (length new) old.

Section Decode.
  Variable P : puns.
  (** np_crypto.c:172-203 np_cryptofactory_by_public fails if the key is no point of the curve *)
  Variable on_curve : list Z -> bool.
  Variable l : list (ukey * tval).

  (** Once a field is missing the rest is not read; the scope is set in any case (263-272). *)
  Definition done (ok : bool) (t : token) : outcome (bool * token) :=
    Ok (ok, set_scope t (if private_key_is_set t then scope_private else scope_public)).
  Definition mandatory (k : list Z) (t : token) (f : tval -> outcome token) (next : token -> outcome (bool * token)) : outcome (bool * token) :=
    match entry k l with None => done false t | Some v => obind (f v) next end.
  Definition optional (k : list Z) (t : token) (f : tval -> outcome token) (next : token -> outcome (bool * token)) : outcome (bool * token) :=
    match entry k l with None => next t | Some v => obind (f v) next end.
  (** np_aaatoken.c:170-261 np_aaatoken_decode into the token [t] *)
  Definition decode (t : token) : outcome (bool * token) :=
    let t := put_type (set_scope t 0) type_undefined in
    mandatory k_uuid t (fun v => obind (bin 16 v) (fun b => Ok (put_uuid t b))) (fun t =>
    mandatory k_type t (fun v => Ok (put_type t (ush P v))) (fun t =>
    optional k_realm t (fun v => obind (to_str (shown P) v) (fun s => Ok (put_realm t (strncpy 255 s)))) (fun t =>
    mandatory k_issuer t (fun v => obind (to_str (shown P) v) (fun s => Ok (put_issuer t (strncpy 65 s)))) (fun t =>
    mandatory k_subject t (fun v => obind (to_str (shown P) v) (fun s => Ok (put_subject t (strncpy 255 s)))) (fun t =>
    optional k_audience t (fun v => obind (to_str (shown P) v) (fun s => Ok (put_audience t (strncpy 255 s)))) (fun t =>
    mandatory k_public t (fun v => obind (bin 32 v) (fun b => Ok (put_public t b))) (fun t =>
    if negb (on_curve (pk t)) then done false t else
    mandatory k_expires t (fun v => Ok (put_expires t (dbl P v))) (fun t =>
    optional k_issued t (fun v => Ok (put_issued t (dbl P v))) (fun t =>
    optional k_before t (fun v => Ok (put_before t (dbl P v))) (fun t =>
    mandatory k_signature t (fun v => obind (bin 64 v) (fun b => Ok (set_flags (set_sig t b) false (attr_ok t) (issuer_ok t)))) (fun t =>
    match entry k_extensions l with
    | None => done true t
    | Some v =>
        obind (bin_upto (Z.to_nat 10240) v) (fun e =>
        let t := set_attr t (over e (attributes t)) (attributes_signature t) in
        mandatory k_ext_signature t (fun v => obind (bin_upto 64 v) (fun b =>
          Ok (set_flags (set_attr t (attributes t) (over b (attributes_signature t))) (sig_ok t) false (issuer_ok t)))) (done true))
    end))))))))))).
End Decode.

(** *** Checking a token that came in *)
(** A call on a data block that does not end stops the node as an assertion does. *)
Definition returns {X} (r : run X) : outcome X := match r with Done x => Ok x | Undef => UB | Hangs | Aborts => Abort end.

Section Check.
  Variable C : crypto.
  Variable now : Z.
  (** np_aaatoken.c:420-442, 963-989: the hash is taken over as many bytes as the header of the block says *)
  Definition size_readable (t : token) : outcome unit :=
    match np_get_data_size (attributes t) with
    | (np_data_ok, n) => if n <=? Z.of_nat (length (attributes t)) then Ok tt else UB
    | _ => Ok tt
    end.
  (** 472-512: the counters of an intent *)
  Definition counters_readable (t : token) : outcome unit :=
    obind (returns (np_get_data (attributes t) k_max_threshold)) (fun r =>
    match r with
    | (np_data_ok, _) => obind (returns (np_get_data (attributes t) k_msg_threshold)) (fun _ => Ok tt)
    | _ => Ok tt
    end).
  (** 310-519 _np_aaatoken_is_valid: how far it gets, and what is read on the way; the answer is that of Token_Model *)
  Definition is_valid_in (t : token) (expected : Z) : outcome (bool * token) :=
    let answer := is_valid C block_ops t expected now in
    if negb (flag_cmp (ttype t) expected) || (expires_at t <? now) then Ok answer
    else
      obind (if scope_private_available <? scope t then
               if negb (sig_ok t) && negb (verify C (signature t) (get_hash C t) (pk t)) then Ok false
               else if attr_ok t then Ok true
               else obind (size_readable t) (fun _ => Ok (check_attr_sig C block_ops t))
             else Ok true) (fun signed =>
      if signed && flag_cmp (ttype t) type_message_intent then obind (counters_readable t) (fun _ => Ok answer) else Ok answer).

  Variable P : puns.
  Variable on_curve : list Z -> bool.
  (** np_aaatoken.c:50-107: a new token *)
  Variable fresh : token.

  (** np_token_factory.c:487-515 np_token_factory_read_from_tree ([None]: NULL) *)
  Definition read_from_tree (l : list (ukey * tval)) : outcome (option token) :=
    obind (decode P on_curve l fresh) (fun '(ok, t) =>
    if ok then
      obind (is_valid_in t type_undefined) (fun '(ok, t) =>
      if ok then if (1 <? length (cstr 255 (subject t)))%nat then Ok (Some t) else Abort
      else Ok None)
    else Ok None).

  (** np_aaatoken.c:618-656 np_aaatoken_get_partner_fp.  "_np.partner_fp" *)
  Definition k_partner : list Z := [95; 110; 112; 46; 112; 97; 114; 116; 110; 101; 114; 95; 102; 112].
  Definition partner_fp (t : token) : outcome (list Z) :=
    obind (returns (np_get_data (attributes t) k_partner)) (fun r =>
    match r with
    | (np_data_ok, Some (Data_Model.DBin b)) => if (length b =? 32)%nat then Ok b else Abort
    | (np_data_ok, _) => Abort (* a number is 4 bytes long; simplified: so is no text *)
    | (np_key_not_found, _) => Ok (if hd 0 (issuer t) =? 0 then fingerprint C t else id_of_str (issuer t))
    | _ => Abort
    end).

  (** *** The handlers *)
  (** Events for keys of this node.  [about]: the key the event names as its target *)
  Inductive kind := Shutdown | Authn | NewToken | Authz.
  Record event := mkEvent { to : list Z; what : kind; with_token : token; about : list Z }.

  (** include/core/np_comp_msgproperty.h:48-53: "urn:np:node", "urn:np:id", "urn:np:intent", "urn:np:hs" *)
  Definition urn (l : list Z) : list Z := [117; 114; 110; 58; 110; 112; 58] ++ l.
  Definition URN_NODE : list Z := urn [110; 111; 100; 101].
  Definition URN_IDENTITY : list Z := urn [105; 100].
  Definition URN_INTENT : list Z := urn [105; 110; 116; 101; 110; 116].
  Definition URN_HANDSHAKE : list Z := urn [104; 115].

  Definition token_in (v : tval) : outcome (option token) := obind (tree_of v) read_from_tree.

  (** np_dendrit.c:342-383 _np_in_leave, for a message that came over the connection [alias] *)
  Definition in_leave (alias : list Z) (body : list (ukey * tval)) : outcome (list event) :=
    match entry URN_NODE body with
    | None => Ok []
    | Some v =>
        obind (token_in v) (fun o =>
        match o with
        | None => Ok []
        | Some t => Ok [mkEvent (fingerprint C t) Shutdown t (fingerprint C t); mkEvent alias Shutdown t alias]
        end)
    end.

  (** neuropil.c:1076-1089 np_str_id: the node stops if the text does not begin with 64 hex digits *)
  Definition str_id (buf : list Z) : outcome (list Z) :=
    if (length buf <? 64)%nat then UB else match hex2bin (firstn 64 buf) with Some id => Ok id | None => Abort end.
  Definition key_eqb (a b : list Z) : bool := if list_eq_dec Z.eq_dec a b then true else false.
  (** np_dendrit.c:391-571 _np_in_join.  [known]: the keys in the key cache; [me]: the own identity *)
  Definition in_join (known : list Z -> bool) (me alias : list Z) (body : list (ukey * tval)) : outcome (list event) :=
    match entry URN_NODE body with
    | None => Ok []
    | Some v =>
        obind (token_in v) (fun o =>
        match o with
        | None => Ok []
        | Some node =>
            obind (is_valid_in node type_node) (fun '(ok, node) =>
            if negb ok then Ok [] else
            let node_fp := fingerprint C node in
            match entry URN_IDENTITY body with
            | None =>
                Ok (if known node_fp then map (fun k => mkEvent k Authn node alias) [node_fp; alias; me] else [])
            | Some w =>
                obind (token_in w) (fun o =>
                match o with
                | None => Ok []
                | Some ident =>
                    obind (is_valid_in ident type_identity) (fun '(ok, ident) =>
                    if negb ok then Ok [] else
                    obind (partner_fp ident) (fun of_ident =>
                    if key_eqb zero_id of_ident || negb (key_eqb node_fp of_ident) then Ok [] else
                    obind (partner_fp node) (fun of_node =>
                    if key_eqb zero_id of_node || negb (key_eqb (fingerprint C ident) of_node) then Ok [] else
                    Ok (if known node_fp
                        then [mkEvent node_fp NewToken node node_fp; mkEvent alias NewToken node node_fp; mkEvent me Authn ident alias]
                        else []))))
                end)
            end)
        end)
    end.

  (** np_dendrit.c:627-682 _np_in_update: the token of a new node (that the message is passed on is left out).  The new key
      reads the issuer once more, np_comp_alias.c:258-262 and np_comp_node.c:48-54. *)
  Definition in_update (known : list Z -> bool) (body : list (ukey * tval)) : outcome (list event) :=
    match entry URN_NODE body with
    | None => UB
    | Some v =>
        obind (tree_of v) (fun l =>
        obind (decode P on_curve l fresh) (fun '(_, t) =>
        obind (is_valid_in t type_handshake) (fun '(ok, t) =>
        let d := id_of_str (issuer t) in
        if ok && negb (known d) then obind (str_id (issuer t)) (fun _ => Ok [mkEvent d NewToken t d]) else Ok [])))
    end.

  (** np_dendrit.c:686-742 _np_in_available_sender.  [channel]: the key of the receiving side of a subject *)
  Definition in_available_sender (channel : list Z -> list Z) (body : list (ukey * tval)) : outcome (list event) :=
    match entry URN_INTENT body with
    | None => Ok []
    | Some v =>
        obind (token_in v) (fun o =>
        match o with
        | None => Ok []
        | Some t => obind (str_id (subject t)) (fun s => let d := channel s in Ok [mkEvent d Authz t d])
        end)
    end.
  (** np_dendrit.c:744-794 _np_in_available_receiver.  [channel]: the key of the sending side *)
  Definition in_available_receiver (channel : list Z -> list Z) (body : list (ukey * tval)) : outcome (list event) :=
    match entry URN_INTENT body with
    | None => UB
    | Some v =>
        obind (token_in v) (fun o =>
        match o with
        | None => Ok []
        | Some t => obind (str_id (subject t)) (fun s => let d := channel s in Ok [mkEvent d Authz t d])
        end)
    end.
  (** np_dendrit.c:937-1003 _np_in_handshake, up to the connection ([node_made]: the node could be created, 992; that a
      waiting wildcard is told is left out).  The key of the issuer reads the issuer once more, np_comp_alias.c:258-262 and
      np_comp_node.c:48-54. *)
  Definition in_handshake (node_made : bool) (alias : list Z) (body : list (ukey * tval)) : outcome (list event) :=
    match entry URN_HANDSHAKE body with
    | None => UB
    | Some v =>
        obind (token_in v) (fun o =>
        match o with
        | None => Ok []
        | Some t =>
            obind (is_valid_in t type_handshake) (fun '(ok, t) =>
            if negb ok then Ok [] else
            obind (str_id (issuer t)) (fun _ =>
            Ok (mkEvent (id_of_str (issuer t)) NewToken t alias :: if node_made then [mkEvent alias NewToken t alias] else [])))
        end)
    end.

  (** np_comp_node.c:66-96 __is_shutdown_event, for an event of the kind [Shutdown] (it is external): [local] is the token
      the key has *)
  Definition shuts_down (local : option token) (e : event) : outcome bool :=
    obind (is_valid_in (with_token e) type_node) (fun '(ok, t) =>
    Ok (ok && match local with Some k => key_eqb (pk t) (pk k) | None => true end)).

  (** np_comp_identity.c:496-560 __np_identity_handle_authn: [join_allowed] is the answer of the callback; no realm client *)
  Inductive verdict := Accept (key : list Z) | Refuse (key : list Z).
  Definition handle_authn (join_allowed : token -> bool) (e : event) : outcome (list verdict) :=
    let t := with_token e in
    if is_authenticated (state t) then Ok []
    else if join_allowed t then
      obind (if negb (flag_cmp (ttype t) type_node) then partner_fp t else Ok (fingerprint C t)) (fun d =>
      Ok [Accept d; Accept (about e)])
    else Ok [Refuse (fingerprint C t)].
End Check.

(** *** Lists of nodes and pheromones *)
(** include/np_constants.h:46-49: "np.n.k", "np.n.pr", "np.n.d", "np.n.p" *)
Definition np_n (l : list Z) : list Z := [110; 112; 46; 110; 46] ++ l.
Definition k_node_key := np_n [107].
Definition k_node_protocol := np_n [112; 114].
Definition k_node_name := np_n [100].
Definition k_node_port := np_n [112].
Record node_entry := mkNode { n_key : list Z; n_name : list Z; n_port : list Z }.
(** np_node.c:292-353 _np_node_decode_from_jrb (numbers are left out) *)
Definition node_of (P : puns) (l : list (ukey * tval)) : outcome (option node_entry) :=
  match entry k_node_protocol l, entry k_node_name l, entry k_node_port l with
  | None, _, _ => Ok None
  | Some _, None, _ => Ok None
  | Some _, Some vn, None => obind (to_str (shown P) vn) (fun _ => Ok None)
  | Some _, Some vn, Some vp =>
      obind (to_str (shown P) vn) (fun name => obind (to_str (shown P) vp) (fun port =>
      obind (match entry k_node_key l with Some vk => to_str (shown P) vk | None => Ok [42] end) (fun key =>
      Ok (Some (mkNode (firstn 255 key) name port)))))
  end.
(** np_tree_find_int *)
Fixpoint entry_int (i : Z) (l : list (ukey * tval)) : option tval :=
  match l with [] => None | (UInt j, v) :: r => if i =? j then Some v else entry_int i r | _ :: r => entry_int i r end.
(** np_node.c:492-513 _np_node_decode_multiple_from_jrb: the numbers from 0 on, as many as there are entries *)
Fixpoint nodes_of (P : puns) (l : list (ukey * tval)) (ns : list nat) : outcome (list node_entry) :=
  match ns with
  | [] => Ok []
  | i :: ns' =>
      match entry_int (Z.of_nat i) l with
      | None => UB
      | Some v => obind (tree_of v) (fun t => obind (node_of P t) (fun o =>
                  obind (nodes_of P l ns') (fun r => Ok (match o with Some n => n :: r | None => r end))))
      end
  end.
Definition in_piggy (P : puns) (body : list (ukey * tval)) : outcome (list node_entry) :=
  nodes_of P body (seq 0 (Z.to_nat (u16 (Z.of_nat (length body))))).
(** np_dendrit.c:818-887: the position of a scent.  [faded]: the scent has no smell left; [pos]: key.value.i of other keys *)
Definition scent_position (faded : tval -> bool) (pos : ukey -> Z) (e : ukey * tval) : outcome (option Z) :=
  match snd e with
  | VBin _ | VHash _ | VStr _ =>
      if faded (snd e) then Ok None
      else
        let i := match fst e with UInt i => i | u => pos u end in
        if i <? 0 then if -257 <=? i then Ok (Some i) else Abort
        else if (0 <? i) && (i <=? 257) then Ok (Some i) else Abort
  | _ => UB
  end.
