(** Files of the identity framework: secret keys, tokens and the key store on disk.
    framework/identity/np_identity.c, framework/identity/np_keystore.c and the serializers
    src/util/s11n_impl/np_serialize_qcbor.c:1026-1542.

    Bytes are numbers 0..255.  crypto_secretbox_easy / _open_easy are the two functions of a [box]; the theorems hold for
    every box with the laws they name.  Left out: logging, memory locking, short writes and full disks, permissions of
    directories, the time zone of the backup's name. *)
From Verif Require Import Base Token_Model Cbor_Model.

(** * Maps with labels, as QCBOREncode_Add...ToMapN / QCBORDecode_Get...InMapN use them (RFC 8949) *)
Inductive label := LN (z : Z) | LS (t : list Z).
Inductive mval := MInt (z : Z) | MBytes (b : list Z) | MText (b : list Z) | MDouble (bits : Z) | MInts (l : list Z).
Definition label_eqb (a b : label) : bool :=
  match a, b with
  | LN x, LN y => x =? y
  | LS x, LS y => if list_eq_dec Z.eq_dec x y then true else false
  | _, _ => false
  end.
Definition enc_label (l : label) : list Z := match l with LN z => enc_int z | LS t => enc_text t end.
(** Doubles are written at full width (QCBOR writes a shorter form of the same number where one exists) *)
Definition enc_val (v : mval) : list Z :=
  match v with
  | MInt z => enc_int z | MBytes b => enc_bytes b | MText b => enc_text b | MDouble d => enc_double d
  | MInts l => head 4 (Z.of_nat (length l)) ++ flat_map enc_int l
  end.
Definition enc_entry (e : label * mval) : list Z := enc_label (fst e) ++ enc_val (snd e).
Definition enc_map (es : list (label * mval)) : list Z := head 5 (Z.of_nat (length es)) ++ flat_map enc_entry es.

(** Reading: maps inside of maps, arrays of anything but integers and other items as values count as unreadable
    (QCBOR steps over them; nothing here writes them) *)
Fixpoint read_ints (n : nat) (bs : list Z) : option (list Z * list Z) :=
  match n with
  | O => Some ([], bs)
  | S n' => match next bs with
            | Some (_, IInt z, r) => match read_ints n' r with Some (l, r') => Some (z :: l, r') | None => None end
            | _ => None
            end
  end.
Definition read_label (bs : list Z) : option (label * list Z) :=
  match next bs with
  | Some (_, IInt z, r) => Some (LN z, r)
  | Some (_, IText t, r) => Some (LS t, r)
  | _ => None
  end.
Definition read_val (bs : list Z) : option (mval * list Z) :=
  match next bs with
  | Some (_, IInt z, r) => Some (MInt z, r)
  | Some (_, IBytes b, r) => Some (MBytes b, r)
  | Some (_, IText b, r) => Some (MText b, r)
  | Some (_, IDouble d, r) => Some (MDouble d, r)
  | Some (_, IArray n, r) =>
      if n <=? Z.of_nat (length r)
      then match read_ints (Z.to_nat n) r with Some (l, r') => Some (MInts l, r') | None => None end
      else None
  | _ => None
  end.
Fixpoint read_entries (n : nat) (bs : list Z) : option (list (label * mval) * list Z) :=
  match n with
  | O => Some ([], bs)
  | S n' => match read_label bs with
            | Some (l, r) => match read_val r with
                             | Some (v, r') => match read_entries n' r' with
                                               | Some (es, r'') => Some ((l, v) :: es, r'')
                                               | None => None
                                               end
                             | None => None
                             end
            | None => None
            end
  end.
(** A map with its tags (innermost first); [None]: not a map, or not well formed *)
Definition read_map (bs : list Z) : option (list Z * list (label * mval) * list Z) :=
  match next bs with
  | Some (tags, IMap n, r) =>
      if n <=? Z.of_nat (length r)
      then match read_entries (Z.to_nat n) r with Some (es, r') => Some (tags, es, r') | None => None end
      else None
  | _ => None
  end.
(** QCBORDecode_Get...InMap: the value of a label; QCBOR_ERR_LABEL_NOT_FOUND; QCBOR_ERR_DUPLICATE_LABEL *)
Inductive found := Found (v : mval) | NotFound | Twice.
Definition find_label (l : label) (es : list (label * mval)) : found :=
  match filter (fun e => label_eqb l (fst e)) es with
  | [] => NotFound
  | [(_, v)] => Found v
  | _ => Twice
  end.
(** the value of the entry that follows the one with label [l] (QCBORDecode_GetInt64 after ExitArray) *)
Fixpoint after (l : label) (es : list (label * mval)) : option mval :=
  match es with
  | [] => None
  | e :: r => if label_eqb l (fst e) then match r with (_, v) :: _ => Some v | [] => None end else after l r
  end.

(** * An output buffer of QCBOR: items are appended or inserted; what does not fit sets the error (and is left out) *)
Record obuf := mkO { ob : list Z; oerr : bool }.
Definition o_app (cap : Z) (x : list Z) (o : obuf) : obuf :=
  if oerr o || (cap <? Z.of_nat (length (ob o) + length x)) then mkO (ob o) true else mkO (ob o ++ x) false.
Definition o_ins (cap : Z) (pos : nat) (x : list Z) (o : obuf) : obuf :=
  if oerr o || (cap <? Z.of_nat (length (ob o) + length x)) then mkO (ob o) true
  else mkO (firstn pos (ob o) ++ x ++ skipn pos (ob o)) false.

(** np_serialize_qcbor.c:1448-1487 np_serializer_write_encrypted: tag 16, an array of an empty string, a map with the
    nonce under label 6, the content.  The heads of the array and of the map are inserted when they are closed. *)
Definition write_encrypted_buf (cap : Z) (nonce m : list Z) : obuf :=
  let o := o_app cap (enc_tag 16) (mkO [] false) in
  let o := o_app cap (head 2 0) o in
  let o := o_app cap (enc_int 6) o in
  let o := o_app cap (head 2 (Z.of_nat (length nonce))) o in
  let o := o_app cap nonce o in
  let o := o_ins cap 2 (head 5 1) o in
  let o := o_app cap (head 2 (Z.of_nat (length m))) o in
  let o := o_app cap m o in
  o_ins cap 1 (head 4 3) o.
(** [None]: false *)
Definition np_serializer_write_encrypted (cap : Z) (nonce m : list Z) : option (list Z) :=
  let o := write_encrypted_buf cap nonce m in if oerr o then None else Some (ob o).

(** np_serialize_qcbor.c:1489-1542 np_serializer_read_encrypted: the nonce and the content.  Arrays of a length other
    than 3 and a first element that is itself an array or a map count as unreadable. *)
Definition np_serializer_read_encrypted (file : list Z) (cb_len : Z) : option (list Z * list Z) :=
  match next file with
  | Some (tags, IArray n, r1) =>
      if (hd 0 tags =? 16) && (n =? 3) then
        match next r1 with
        | Some (_, IArray _, _) | Some (_, IMap _, _) | None => None
        | Some (_, _, r2) =>
            match read_map r2 with
            | Some (_, es, r3) =>
                match find_label (LN 6) es with
                | Found (MBytes nonce) =>
                    if (length nonce =? 24)%nat then
                      match next r3 with
                      | Some (_, IBytes c, _) => if Z.of_nat (length c) <=? cb_len then Some (nonce, c) else None
                      | _ => None
                      end
                    else None
                | _ => None
                end
            | None => None
            end
        end
      else None
  | _ => None
  end.

(** * Keys (COSE_Key) *)
Definition zeros (l : list Z) : bool := forallb (Z.eqb 0) l.
Definition fits (cap : Z) (bs : list Z) : option (list Z) := if Z.of_nat (length bs) <=? cap then Some bs else None.
(** np_serialize_qcbor.c:1274-1345 np_serializer_write_ed25519(include_secret_key = true) *)
Definition key_entries (identifier sk pk : list Z) : list (label * mval) :=
  [(LN 1, MInt 1)] ++ (if zeros identifier then [] else [(LN 2, MBytes identifier)]) ++
  [(LN 4, MInts [1; 2]); (LN (-1), MInt 6)] ++
  (if zeros pk then [] else [(LN (-2), MBytes pk)]) ++
  (if zeros (firstn 32 sk) then [] else [(LN (-4), MBytes (firstn 32 sk))]).
Definition np_serializer_write_ed25519 (cap : Z) (identifier sk pk : list Z) : option (list Z) :=
  fits cap (enc_map (key_entries identifier sk pk)).
(** np_serialize_qcbor.c:1347-1446 np_serializer_read_ed25519 into the three given buffers.  (The lengths of the elements
    are not checked there: shorter ones would be read past their end.) *)
Definition np_serializer_read_ed25519 (bs identifier sk pk : list Z) : option (list Z * list Z * list Z) :=
  match read_map bs with
  | Some (_, es, _) =>
      match find_label (LN 1) es with
      | Found (MInt 1) =>
          let identifier' := match find_label (LN 2) es with Found (MBytes b) => firstn 32 b | _ => identifier end in
          match find_label (LN 4) es with
          | Found (MInts (1 :: 2 :: _)) =>
              match after (LN 4) es with
              | Some (MInt 6) =>
                  let '(sk1, pk1, set1) := match find_label (LN (-2)) es with
                                           | Found (MBytes b) => (firstn 32 sk ++ firstn 32 b, firstn 32 b, true)
                                           | _ => (sk, pk, false)
                                           end in
                  let '(sk2, set2) := match find_label (LN (-4)) es with
                                      | Found (MBytes b) => (firstn 32 b ++ skipn 32 sk1, true)
                                      | _ => (sk1, set1)
                                      end in
                  if set2 then Some (identifier', sk2, pk1) else None
              | _ => None
              end
          | _ => None
          end
      | _ => None
      end
  | None => None
  end.

(** * Tokens *)
Definition t_realm : list Z := [110;112;58;114;101;97;108;109].   (* "np:realm" *)
Definition t_attr : list Z := [110;112;58;97;116;116;114].        (* "np:attr" *)
Definition t_pk : list Z := [110;112;58;112;107].                 (* "np:pk" *)
Definition opt_id (l : label) (id : list Z) : list (label * mval) := if zeros id then [] else [(l, MBytes id)].
(** np_serialize_qcbor.c:1026-1131 np_serializer_write_nptoken; [attr_size]: what np_get_data_size says *)
Definition token_entries (attr_size : Z) (t : user_token) : list (label * mval) :=
  opt_id (LN 1) (u_issuer t) ++ [(LN 2, MText (cstr 255 (u_subject t)))] ++ opt_id (LN 3) (u_audience t) ++
  [(LN 6, MDouble (u_expires_at t)); (LN 5, MDouble (u_not_before t)); (LN 4, MDouble (u_issued_at t)); (LN 7, MBytes (u_uuid t))] ++
  opt_id (LS t_realm) (u_realm t) ++
  [(LS t_attr, MBytes (firstn (Z.to_nat attr_size) (u_attributes t))); (LS t_pk, MBytes (u_public_key t))].
Definition sign_entries (t : user_token) : list (label * mval) :=
  [(LN 1, MBytes (u_signature t)); (LN 2, MBytes (u_attributes_signature t))].
(** attributes without a valid size: the size is an uninitialised variable (1071-1072) *)
Definition np_serializer_write_nptoken (A : attr_ops) (cap : Z) (t : user_token) : outcome (option (list Z)) :=
  match ad_size A (u_attributes t) with
  | Some n => Ok (fits cap (enc_tag 98 ++ enc_map (token_entries n t) ++ enc_map (sign_entries t)))
  | None => UB
  end.
(** memmove(dest, src, |src|) into a longer field *)
Definition over (dest src : list Z) : list Z := src ++ skipn (length src) dest.
Definition id_or (es : list (label * mval)) (l : label) (old : list Z) : list Z :=
  match find_label l es with Found (MBytes b) => firstn 32 b | _ => old end.
Definition dbl_or (es : list (label * mval)) (l : label) (old : Z) : Z :=
  match find_label l es with Found (MDouble d) => d | _ => old end.
(** np_serialize_qcbor.c:1133-1259 np_serializer_read_nptoken into the given token.  A token that is refused may be
    half written; here it is left as it was. *)
Definition np_serializer_read_nptoken (bs : list Z) (t : user_token) : option user_token :=
  match read_map bs with
  | Some (tags, es, r) =>
      if hd 0 tags =? 98 then
        match find_label (LN 2) es, find_label (LN 7) es, find_label (LS t_attr) es, find_label (LS t_pk) es with
        | Found (MText s), Found (MBytes u), Found (MBytes a), Found (MBytes k) =>
            if (length k =? 32)%nat then
              match read_map r with
              | Some (_, es2, _) =>
                  match find_label (LN 1) es2, find_label (LN 2) es2 with
                  | Found (MBytes s1), Found (MBytes s2) =>
                      if (length s1 =? 64)%nat && (length s2 =? 64)%nat then
                        Some (mkUser (firstn 16 u) (over (u_subject t) (firstn 255 s)) (id_or es (LN 1) (u_issuer t))
                                     (id_or es (LS t_realm) (u_realm t)) (id_or es (LN 3) (u_audience t))
                                     (dbl_or es (LN 4) (u_issued_at t)) (dbl_or es (LN 5) (u_not_before t)) (dbl_or es (LN 6) (u_expires_at t))
                                     k (u_secret_key t) s1 (over (u_attributes t) a) s2)
                      else None
                  | _, _ => None
                  end
              | None => None
              end
            else None
        | _, _, _, _ => None
        end
      else None
  | None => None
  end.

(** * The process and its files *)
(** ".npid", "np:npt:<fingerprint>", ".npks", ".npid.<time>" *)
Inductive fname := Npid | Npt (fp : list Z) | Npks | Backup (time : Z).
Definition fname_dec (a b : fname) : {a = b} + {a <> b}.
Proof. decide equality; first [apply list_eq_dec; apply Z.eq_dec | apply Z.eq_dec]. Defined.
(** A file: its content, and whether its owner may open it for writing *)
Record proc := mkProc {
  files : nat -> fname -> option (list Z * bool);   (* by directory and name *)
  is_dir : nat -> bool;                             (* which directories exist *)
  cwd : nat;                                        (* current working directory *)
  errno : Z;
  root : bool;                                      (* permissions of files do not bind this user *)
  stamp : Z }.                                      (* time of the last change of the file in question *)
Definition set_cwd (p : proc) (d : nat) : proc := mkProc (files p) (is_dir p) d (errno p) (root p) (stamp p).
Definition set_errno (p : proc) (e : Z) : proc := mkProc (files p) (is_dir p) (cwd p) e (root p) (stamp p).
Definition set_file (p : proc) (n : fname) (f : option (list Z * bool)) : proc :=
  mkProc (fun d m => if Nat.eqb d (cwd p) then if fname_dec m n then f else files p d m else files p d m)
         (is_dir p) (cwd p) (errno p) (root p) (stamp p).
Definition ENOENT : Z := 2.
Definition EACCES : Z := 13.
(** chdir(directory), its result is not looked at *)
Definition chdir (d : nat) (p : proc) : proc := if is_dir p d then set_cwd p d else set_errno p ENOENT.
Definition here (p : proc) (n : fname) : option (list Z * bool) := files p (cwd p) n.

(** np_identity.c:55-108 __write_encrypted; [true]: np_ok.  With no such file the time in the name of the backup is read
    from an uninitialised structure, and the rename that follows fails. *)
Definition write_encrypted (p : proc) (n : fname) (nonce m : list Z) : bool * proc :=
  let p := match here p n with Some _ => p | None => set_errno p ENOENT end in
  let p := if (errno p =? ENOENT) && (if fname_dec n Npid then true else false) then
             match here p n with
             | Some f => set_file (set_file p (Backup (stamp p)) (Some f)) n None
             | None => p
             end
           else p in
  let opened := match here p n with
                | None => Some ([], false)                      (* S_IRUSR *)
                | Some (old, w) => if w || root p then Some (old, w) else None
                end in
  match opened with
  | None => (false, set_errno p EACCES)
  | Some (old, w) =>
      match np_serializer_write_encrypted (Z.of_nat (length m) + 48) nonce m with
      | Some bs => (true, set_file p n (Some (over old bs, w)))
      | None => (false, set_file p n (Some (old, w)))
      end
  end.
(** np_identity.c:110-135 __read_encrypted: the nonce and the content that is copied into the caller's buffer, whose
    size is not looked at *)
Definition read_encrypted (p : proc) (n : fname) : option (list Z * list Z) :=
  match here p n with
  | Some (bs, _) => np_serializer_read_encrypted bs (Z.of_nat (length bs))
  | None => None
  end.

(** libsodium: crypto_secretbox_easy(m, nonce, key), crypto_secretbox_open_easy(c, nonce, key) *)
Record box := mkBox { seal : list Z -> list Z -> list Z -> list Z; unseal : list Z -> list Z -> list Z -> option (list Z) }.

Definition np_ok : Z := 0.
Definition np_unknown_error : Z := 2.
Definition np_invalid_argument : Z := 5.
Definition np_invalid_operation : Z := 6.

Definition with_keys (t : user_token) (sk pk : list Z) : user_token :=
  mkUser (u_uuid t) (u_subject t) (u_issuer t) (u_realm t) (u_audience t) (u_issued_at t) (u_not_before t) (u_expires_at t)
         pk sk (u_signature t) (u_attributes t) (u_attributes_signature t).

Section Identity.
  Variable B : box.
  Variable C : crypto.
  Variable A : attr_ops.
  (** fresh token objects, as in Token_Model *)
  Variable fresh : token.
  Variable fresh_of : list Z -> token.

  (** np_identity.c:251-303 np_identity_save_secretkey; np_identity.c:199-249 np_identity_create_secretkey does the same
      with a new identity and the zero identifier *)
  Definition save_keys (p : proc) (dir : nat) (pass nonce identifier sk pk : list Z) : Z * proc :=
    if zeros pass then (np_invalid_argument, p)
    else match np_serializer_write_ed25519 512 identifier sk pk with
         | None => (np_unknown_error, p)
         | Some m =>
             let '(ok, p') := write_encrypted (chdir dir p) Npid nonce (seal B m nonce pass) in
             (if ok then np_ok else np_unknown_error, set_cwd p' (cwd p))
         end.
  Definition np_identity_save_secretkey (p : proc) (dir : nat) (pass nonce : list Z) (t : user_token) : Z * proc :=
    save_keys p dir pass nonce (np_token_fingerprint C fresh t) (u_secret_key t) (u_public_key t).
  Definition np_identity_create_secretkey (p : proc) (dir : nat) (pass nonce : list Z) (created : user_token) : Z * proc :=
    save_keys p dir pass nonce zero_id (u_secret_key created) (u_public_key created).

  (** np_identity.c:137-195 np_identity_load_secretkey: return code, process, identifier, identity.
      The content goes to a buffer of 512 bytes. *)
  Definition np_identity_load_secretkey (p : proc) (dir : nat) (identifier pass : list Z) (t : user_token)
    : outcome (Z * proc * list Z * user_token) :=
    if zeros pass then Ok (np_invalid_argument, p, identifier, t)
    else
      let p1 := chdir dir p in
      match read_encrypted p1 Npid with
      | None => Ok (np_unknown_error, p1, identifier, t)
      | Some (nonce, c) =>
          if 512 <? Z.of_nat (length c) then UB
          else
            let p2 := set_cwd p1 (cwd p) in
            match unseal B c nonce pass with
            | None => Ok (np_unknown_error, p2, identifier, t)
            | Some m =>
                (* decrypted in place: behind the text the last 16 bytes of the box are still there *)
                match np_serializer_read_ed25519 (m ++ skipn (length m) c) identifier (u_secret_key t) (u_public_key t) with
                | None => Ok (np_unknown_error, p2, identifier, t)
                | Some (i, sk, pk) =>
                    let t1 := with_keys t sk pk in
                    obind (np_sign_identity_self C A fresh_of t1) (fun o =>
                      Ok (match o with
                          | Some t2 => (np_ok, p2, i, t2)
                          | None => (np_invalid_argument, p2, i, t1)
                          end))
                end
            end
      end.

  (** sizeof(struct np_token) + NP_FINGERPRINT_BYTES *)
  Definition token_buffer : Z := 10855 + 32.
  (** np_identity.c:376-432 np_identity_save_token *)
  Definition np_identity_save_token (p : proc) (dir : nat) (pass nonce : list Z) (t : user_token) : outcome (Z * proc) :=
    if zeros pass then Ok (np_invalid_argument, p)
    else obind (np_serializer_write_nptoken A token_buffer t) (fun o =>
      match o with
      | None => Ok (np_unknown_error, p)
      | Some m =>
          if token_buffer <? Z.of_nat (length m) + 16 then UB
          else
            let '(ok, p') := write_encrypted (chdir dir p) (Npt (np_token_fingerprint C fresh t)) nonce (seal B m nonce pass) in
            Ok (if ok then np_ok else np_unknown_error, set_cwd p' (cwd p))
      end).
  (** np_identity.c:306-372 np_identity_load_token; the last component: np_use_token ([UsedToken]) or np_use_identity
      ([UsedIdentity]) has been called.  The file name determines the fingerprint. *)
  Inductive usage := NotUsed | UsedToken | UsedIdentity.
  Definition np_identity_load_token (p : proc) (dir : nat) (fp pass : list Z) (t : user_token)
    : outcome (Z * proc * user_token * usage) :=
    if zeros pass then Ok (np_invalid_argument, p, t, NotUsed)
    else
      let p1 := chdir dir p in
      let p2 := set_cwd p1 (cwd p) in
      match read_encrypted p1 (Npt fp) with
      | None => Ok (np_unknown_error, p2, t, NotUsed)
      | Some (nonce, c) =>
          if token_buffer <? Z.of_nat (length c) then UB
          else match unseal B c nonce pass with
               | None => Ok (np_unknown_error, p2, t, NotUsed)
               | Some m =>
                   match np_serializer_read_nptoken (m ++ skipn (length m) c) t with
                   | None => Ok (np_unknown_error, p2, t, NotUsed)
                   | Some t1 =>
                       if list_eq_dec Z.eq_dec (np_token_fingerprint C fresh t1) fp
                       then Ok (np_ok, p2, t1, if zeros (u_secret_key t1) then UsedToken else UsedIdentity)
                       else Ok (np_invalid_argument, p2, t1, NotUsed)
                   end
               end
      end.

  (** * The key store *)
  (** crypto_kdf_derive_from_key(id, passphrase) *)
  Variable subkey : list Z -> list Z.
  (** The list of allowed identities (a skip list ordered by fingerprint with a bloom filter in front of it:
      np_keystore.c:35-56) as a list, and its directory *)
  Record keystore := mkKs { allowed : list user_token; ks_dir : nat; ks_id : list Z }.
  Definition fp_of (t : user_token) : list Z := np_token_fingerprint C fresh t.

  (** np_keystore.c:367-408 np_keystore_check_identity *)
  Definition np_keystore_check_identity (k : keystore) (t : user_token) : Z :=
    match find (fun s => if list_eq_dec Z.eq_dec (fp_of s) (fp_of t) then true else false) (allowed k) with
    | Some s => if list_eq_dec Z.eq_dec (u_public_key s) (u_public_key t) then np_ok else np_unknown_error
    | None => np_unknown_error
    end.
  (** np_keystore.c:614-703 np_keystore_store_identity; an identity with a fingerprint that is in the list already is
      not added again by the skip list *)
  Definition np_keystore_store_identity (p : proc) (k : keystore) (nonce : list Z) (t : user_token) : outcome (Z * proc * keystore) :=
    if np_keystore_check_identity k t =? np_ok then Ok (np_ok, p, k)
    else
      let add p' := if existsb (fun s => if list_eq_dec Z.eq_dec (fp_of s) (fp_of t) then true else false) (allowed k)
                    then Ok (np_invalid_operation, p', k)
                    else Ok (np_ok, p', mkKs (allowed k ++ [t]) (ks_dir k) (ks_id k)) in
      obind (np_identity_save_token p (ks_dir k) (subkey (fp_of t)) nonce t) (fun '(r, p') =>
        if r =? np_ok then add p'
        else obind (np_identity_load_token p' (ks_dir k) (fp_of t) (subkey (fp_of t)) (empty_user)) (fun '(r2, p2, t2, _) =>
          if (r2 =? np_ok) && (if list_eq_dec Z.eq_dec (fp_of t2) (fp_of t) then true else false) then add p2
          else Ok (np_invalid_operation, p2, k))).

  (** np_keystore.c:84-154 __mmap_keystore_file: the bytes of the mapped file; [page]: sysconf(_SC_PAGE_SIZE).
      The number of pages is an 8 bit number: with a mapping that is too small the writes behind its end are undefined. *)
  Definition mapped (page size : Z) (old : option (list Z)) : list Z :=
    let r := match old with Some (b :: bs) => b :: bs | _ => repeat 0 (Z.to_nat page) end in
    if Z.of_nat (length r) <? size
    then let n := Z.to_nat (page * u8 (size / page + 1)) in firstn n (r ++ repeat 0 n)
    else r.
  (** np_keystore.c:219-300 __np_keystore_save: the result and the new content of the file.  [fps]: the fingerprints of
      the list.  cbor_size is 8 + 24. *)
  Definition cbor_size : nat := 8 + 24.
  Definition ks_save (page : Z) (old : option (list Z)) (fps : list (list Z)) (key nonce : list Z) : outcome (bool * option (list Z)) :=
    match fps with
    | [] => Ok (true, old)
    | _ =>
        let data_size := 32 * Z.of_nat (length fps) in
        let full_size := data_size + Z.of_nat cbor_size + 16 in
        let region := mapped page full_size old in
        if Z.of_nat (length region) <? full_size then UB
        else
          let c := seal B (concat fps) nonce key in
          let region := firstn cbor_size region ++ c ++ skipn (cbor_size + length c) region in
          let o := write_encrypted_buf full_size nonce c in
          if oerr o then Ok (false, Some (over region (ob o)))
          else Ok (true, Some (firstn (length (ob o)) (over region (ob o))))
    end.
  Definition np_keystore_save (page : Z) (p : proc) (k : keystore) (nonce : list Z) : outcome (bool * proc) :=
    let p1 := chdir (ks_dir k) p in
    obind (ks_save page (option_map fst (here p1 Npks)) (map fp_of (allowed k)) (subkey (ks_id k)) nonce) (fun '(b, f) =>
      Ok (b, set_cwd (match f with Some bs => set_file p1 Npks (Some (bs, true)) | None => p1 end) (cwd p))).
  (** np_keystore.c:501-611 np_keystore_load_identities up to the point where the file has been recognised; [None]: the
      list stays as it is.  The return code is np_invalid_operation in every case: [ret] is never set again. *)
  Definition np_keystore_load_identities (page : Z) (p : proc) (k : keystore) : Z * option (list Z * list Z) :=
    let p1 := chdir (ks_dir k) p in
    let region := mapped page 0 (option_map fst (here p1 Npks)) in
    (np_invalid_operation, np_serializer_read_encrypted region (Z.of_nat (length region) - Z.of_nat cbor_size)).
End Identity.
