(** Who may use a data channel: src/core/np_comp_intent.c (intents of peers, sessions), src/core/np_comp_msgproperty.c:1003-1025,
    1294-1417, 1660-1785, 2296-2420 (own intents, arrival of intents), src/core/np_comp_identity.c:448-486, 562-640 (decision),
    src/np_dendrit.c:287-330, 684-796 (arrival, import of keys).
    One key of a channel (receiving or sending).  Not modelled: keys for acknowledgements, reference counts and locks, logging,
    the filter for processed tokens (np_comp_identity.c:464-479: nothing is ever added to it), the pheromones; the rules of
    validity are those of C05-C07 and given with each event ([e_valid]), as are the answers of the callbacks and of the attribute
    policy (C45). *)
From Verif Require Import Base.

(** an intent as far as the code looks at it.  Texts are lists of characters without the terminating zero; ids and keys are
    numbers.  [t_kx]: the key of the peer sessions are made with; [t_fp]: fingerprint; [t_mep], [t_max]: attributes mep_type
    and max_threshold (missing: 0) *)
Record tok := mkTok { t_uuid : Z; t_issuer : list Z; t_subject : list Z; t_realm : list Z; t_kx : Z; t_fp : Z; t_mep : Z; t_max : Z; t_aud : Z }.
(** a token object: the token, the flag AAA_AUTHORIZED of its state, and whether this node made it (ghost) *)
Record obj := mkObj { o_tok : tok; o_auth : bool; o_mine : bool }.

(** key material: agreed with the owner of a key (crypto_kx, np_crypto.c:278-314; both directions are one secret here), random,
    taken from a message that came in a session with [from], or all zero (np_crypto.c:50-60) *)
Inductive secret := Kx (peer : Z) | Random (n : Z) | Imported (k : Z) (from : secret) | Zero.
Inductive stype := SNone | SInitial | SPrivate | SShared.
Record session := mkSes { s_type : stype; s_read : secret; s_write : secret }.

(** settings that do not change here: receiving side, audience type PROTECTED, id of the own identity, realm id, realm client *)
Record conf := mkConf { x_recv : bool; x_protected : bool; x_me : Z; x_realm : Z; x_client : bool }.

Record st := mkSt {
  objs : list obj;
  peers : list nat;            (* send_tokens at the receiver, recv_tokens at the sender *)
  own : list nat;              (* the other list *)
  cur : Z;                     (* current_fp *)
  mep : Z;
  sess : list (Z * session);   (* entity_array[3], a finite map *)
  ask : list nat;              (* tokens on their way to the identity *)
  back : list nat;             (* tokens on their way back *)
  outbox : list Z;             (* key messages waiting for encryption: session ids *)
  sent : list secret;          (* secrets the own key was sent under *)
  accepted : list nat }.       (* ghost: tokens the decision was positive for *)
Definition start (m : Z) : st := mkSt [] [] [] 0 m [] [] [] [] [] [].

Definition set_objs v s := mkSt v (peers s) (own s) (cur s) (mep s) (sess s) (ask s) (back s) (outbox s) (sent s) (accepted s).
Definition set_peers v s := mkSt (objs s) v (own s) (cur s) (mep s) (sess s) (ask s) (back s) (outbox s) (sent s) (accepted s).
Definition set_own v s := mkSt (objs s) (peers s) v (cur s) (mep s) (sess s) (ask s) (back s) (outbox s) (sent s) (accepted s).
Definition set_cur v s := mkSt (objs s) (peers s) (own s) v (mep s) (sess s) (ask s) (back s) (outbox s) (sent s) (accepted s).
Definition set_mep v s := mkSt (objs s) (peers s) (own s) (cur s) v (sess s) (ask s) (back s) (outbox s) (sent s) (accepted s).
Definition set_sess v s := mkSt (objs s) (peers s) (own s) (cur s) (mep s) v (ask s) (back s) (outbox s) (sent s) (accepted s).
Definition set_ask v s := mkSt (objs s) (peers s) (own s) (cur s) (mep s) (sess s) v (back s) (outbox s) (sent s) (accepted s).
Definition set_back v s := mkSt (objs s) (peers s) (own s) (cur s) (mep s) (sess s) (ask s) v (outbox s) (sent s) (accepted s).
Definition set_outbox v s := mkSt (objs s) (peers s) (own s) (cur s) (mep s) (sess s) (ask s) (back s) v (sent s) (accepted s).
Definition set_sent v s := mkSt (objs s) (peers s) (own s) (cur s) (mep s) (sess s) (ask s) (back s) (outbox s) v (accepted s).
Definition set_accepted v s := mkSt (objs s) (peers s) (own s) (cur s) (mep s) (sess s) (ask s) (back s) (outbox s) (sent s) v.

Definition no_tok := mkTok 0 [] [] [] 0 0 0 0 0.
Definition ob (s : st) (o : nat) : obj := nth o (objs s) (mkObj no_tok false false).
Definition tk (s : st) (o : nat) : tok := o_tok (ob s o).
Definition auth (s : st) (o : nat) : bool := o_auth (ob s o).
Definition set_auth (o : nat) (b : bool) (s : st) : st := set_objs (upd (objs s) o (mkObj (tk s o) b (o_mine (ob s o)))) s.

(** the tree of sessions (src/util/np_tree.c, C16-C19) as a map *)
Fixpoint find (i : Z) (l : list (Z * session)) : option session :=
  match l with [] => None | (j, v) :: r => if j =? i then Some v else find i r end.
Definition del (i : Z) (l : list (Z * session)) : list (Z * session) := filter (fun e => negb (fst e =? i)) l.
Definition put (i : Z) (v : session) (l : list (Z * session)) : list (Z * session) := (i, v) :: del i l.   (* np_tree_replace_dhkey *)
Definition put_new (i : Z) (v : session) (l : list (Z * session)) : list (Z * session) :=                  (* np_tree_insert_dhkey *)
  match find i l with None => (i, v) :: l | Some _ => l end.

(** np_comp_intent.c:746-751, 936-939: ids of the two sessions of two intents.  Simplified: the code adds the words of the ids
    without carry *)
Definition private_id (a b : Z) : Z := (a + b) mod 2 ^ 256.
Definition initial_id (a b : Z) : Z := Z.lxor a b.

(** strncmp (a, b, n) = 0 for texts *)
Fixpoint text_eqb (a b : list Z) : bool :=
  match a, b with [], [] => true | x :: a', y :: b' => (x =? y) && text_eqb a' b' | _, _ => false end.
Definition strncmp_eq (n : nat) (a b : list Z) : bool := text_eqb (firstn n a) (firstn n b).
(** np_comp_intent.c:53-62: only as many characters as the first text has *)
Definition prefix_eq (a b : list Z) : bool := strncmp_eq (Nat.min (length a) 255) a b.

(** 37-65 _np_intent_cmp = 0 *)
Definition intent_cmp (a b : tok) : bool :=
  (t_uuid a =? t_uuid b) ||
  (strncmp_eq 65 (t_issuer a) (t_issuer b) && prefix_eq (t_subject a) (t_subject b) && prefix_eq (t_realm a) (t_realm b)).
(** 67-88 _np_intent_cmp_exact = 0 *)
Definition intent_cmp_exact (a b : tok) : bool := (t_kx a =? t_kx b) && (t_uuid a =? t_uuid b) && intent_cmp a b.
(** np_comp_msgproperty.c:1003-1025 _np_aaatoken_cmp = 0 *)
Definition aaatoken_cmp (a b : tok) : bool :=
  strncmp_eq 65 (t_issuer a) (t_issuer b) && prefix_eq (t_subject a) (t_subject b) && prefix_eq (t_realm a) (t_realm b).

(** np_list.h:234-249 pll_replace; the comparison gets the element first and holds for the same object *)
Fixpoint replace (cmp : tok -> tok -> bool) (s : st) (o : nat) (l : list nat) : option (nat * list nat) :=
  match l with
  | [] => None
  | x :: r => if (x =? o)%nat || cmp (tk s x) (tk s o) then Some (x, o :: r)
              else match replace cmp s o r with Some (y, r') => Some (y, x :: r') | None => None end
  end.
(** np_list.h:220-233 pll_remove *)
Fixpoint remove (s : st) (o : nat) (l : list nat) : list nat :=
  match l with [] => [] | x :: r => if (x =? o)%nat || intent_cmp_exact (tk s x) (tk s o) then r else x :: remove s o r end.
(** np_list.h:166-207 pll_insert after pll_replace found nothing.  Simplified: the place depends on the sign of memcmp and strncmp,
    it is given with the event *)
Definition insert_at (n : nat) (o : nat) (l : list nat) : list nat := firstn n l ++ o :: skipn n l.

(** answers from outside at one event: validity of a token now, policy, place of insertion, result of crypto_kx, answers of the
    callbacks of the channel (receiving, sending; None: not set) and of the global callback *)
Record env := mkEnv { e_valid : tok -> bool; e_policy : tok -> bool; e_pos : nat; e_kx : tok -> bool;
  e_in : tok -> option bool; e_out : tok -> option bool; e_global : tok -> bool }.

Definition flag_cmp (data flag : Z) : bool := Z.land data flag =? flag.

(** 721-863 _np_intent_update_sender_session (at the receiver) and 910-1099 _np_intent_update_receiver_session (at the sender).
    [l]: the list whose head is taken to be the own token (734, 921: the head is read without a test).  [recv]: the first of the
    two functions.  The message with the key is put into the job queue (1051-1098) *)
Definition update_session (recv : bool) (e : env) (delete : bool) (l : list nat) (o : nat) (s : st) : outcome st :=
  match l with
  | [] => UB
  | _ =>
    let t := tk s o in
    let p := private_id (t_fp t) (cur s) in
    let i := initial_id (t_fp t) (cur s) in
    if negb recv && (t_fp t =? cur s) then Ok s
    else if delete then Ok (set_sess (del i (del p (sess s))) s)
    else
      let np := match find p (sess s) with None => true | Some _ => false end in
      let ni := match find i (sess s) with None => true | Some _ => false end in
      if (np || ni) && negb (e_kx e t) then Ok s
      else if np || ni then
        let k := Kx (t_kx t) in
        let sp := if np then mkSes SPrivate k k else mkSes SNone Zero Zero in
        let si := if ni then mkSes SInitial k k else mkSes SNone Zero Zero in
        let s1 := set_sess (put i si (put p sp (sess s))) s in
        Ok (if recv then s1 else match find (cur s1) (sess s1) with Some _ => set_outbox (outbox s1 ++ [i]) s1 | None => s1 end)
      else Ok s
  end.

(** np_comp_msgproperty.c:1660-1785: the first own intent is sent out and its fingerprint becomes the current one.  Simplified: the
    interval between two announcements is part of the schedule *)
Definition announce (s : st) : st := match own s with o :: _ => set_cur (t_fp (tk s o)) s | [] => s end.

(** np_comp_intent.c:92-192 _np_intent_add_sender, 276-370 _np_intent_add_receiver *)
Definition add (c : conf) (e : env) (o : nat) (s : st) : outcome st :=
  let t := tk s o in
  let mask := if x_recv c then 240 else 15 in
  let single := if x_recv c then 16 else 1 in
  let s0 := set_mep (Z.lor (mep s) (Z.land (t_mep t) mask)) s in
  if 0 <? t_max t then
    let cmp := if flag_cmp (Z.land (mep s0) mask) single then intent_cmp else intent_cmp_exact in
    let s1 := match replace cmp s0 o (peers s0) with
              | Some (x, l) => set_auth o (auth s0 x) (set_peers l s0)
              | None => set_peers (insert_at (e_pos e) o (peers s0)) s0
              end in
    if auth s1 o then update_session (x_recv c) e false (own s1) o s1 else Ok s1
  else Ok s0.

(** np_comp_msgproperty.c:2296-2420 __np_property_handle_intent; the check of the cache (2343-2358, 2388-2390) is C56 *)
Definition handle_intent (c : conf) (e : env) (o : nat) (s : st) : outcome st :=
  let t := tk s o in
  let aud := if x_protected c then t_aud t else 0 in
  if e_policy e t && ((x_me c =? aud) || (x_realm c =? aud)) then
    let s1 := if negb (x_recv c) && auth s o then announce s else s in
    obind (add c e o s1) (fun s2 => if auth s2 o then Ok s2 else Ok (set_ask (ask s2 ++ [o]) s2))
  else Ok s.

(** np_comp_identity.c:562-640 __np_identity_handle_authz *)
Definition decision (e : env) (t : tok) : bool :=
  let a := match e_in e t with Some b => b | None => false end in
  let a := match e_out e t with Some b => b | None => a end in
  if a then true else e_global e t.
Definition handle_authz (c : conf) (e : env) (o : nat) (s : st) : st :=
  if auth s o then s
  else if decision e (tk s o) && negb (x_client c) then set_accepted (accepted s ++ [o]) (set_back (back s ++ [o]) (set_auth o true s))
  else s.

(** np_comp_intent.c:567-588, 590-611: the first invalid token of a list goes *)
Definition first_invalid (e : env) (s : st) (l : list nat) : option nat := List.find (fun o => negb (e_valid e (tk s o))) l.
Definition check_peers (c : conf) (e : env) (s : st) : outcome st :=
  match first_invalid e s (peers s) with
  | None => Ok s
  | Some o => obind (update_session (x_recv c) e true (own s) o s) (fun s1 => Ok (set_peers (remove s1 o (peers s1)) s1))
  end.
Definition check_own (c : conf) (e : env) (s : st) : outcome st :=
  match first_invalid e s (own s) with
  | None => Ok s
  | Some o => obind (update_session (negb (x_recv c)) e true (peers s) o s) (fun s1 => Ok (set_own (remove s1 o (own s1)) s1))
  end.
(** 546-612 __np_intent_check: first the senders, then the receivers *)
Definition intent_check (c : conf) (e : env) (s : st) : outcome st :=
  if x_recv c then obind (check_peers c e s) (check_own c e) else obind (check_own c e s) (check_peers c e).

(** np_comp_msgproperty.c:1334-1387 a new own intent, first or in place of one that expires soon (when: part of the schedule);
    np_comp_intent.c:1101-1236 _np_intent_update_session with crud_create *)
Definition new_own (c : conf) (t : tok) (n : Z) (s : st) : st :=
  let o := length (objs s) in
  let s1 := set_objs (objs s ++ [mkObj t true true]) s in
  let s2 := match own s1 with
            | [] => set_own [o] s1
            | _ => match replace aaatoken_cmp s1 o (own s1) with Some (_, l) => set_own l s1 | None => s1 end
            end in
  let s3 := set_sess (put_new (t_fp t) (mkSes SShared (Random n) (Random (n + 1))) (sess s2)) s2 in
  if x_recv c then s3
  else set_outbox (outbox s3 ++ map fst (filter (fun x => negb (fst x =? t_fp t) && match s_type (snd x) with SInitial => true | _ => false end) (sess s3))) s3.

(** np_comp_intent.c:865-907 _np_intent_import_session with crud_create *)
Definition import1 (from : secret) (x : Z * Z) (l : list (Z * session)) : list (Z * session) :=
  match find (fst x) l with
  | None => (fst x, mkSes SShared (Imported (snd x) from) Zero) :: l
  | Some old => put (fst x) (mkSes SShared (Imported (snd x) from) (s_write old)) l
  end.
Definition import_session (from : secret) (body : list (Z * Z)) (l : list (Z * session)) : list (Z * session) :=
  fold_left (fun l x => import1 from x l) body l.

Inductive ev :=
| Intent (t : tok)                        (* an intent from the network: np_dendrit.c:684-796 *)
| Authz                                   (* the identity takes the next token *)
| Back                                    (* the channel takes the next token that came back *)
| Check
| NewOwn (t : tok) (n : Z)
| Announce
| Message (id : Z) (body : list (Z * Z))  (* a message of session [id] that could be decrypted, with the ids and keys in it *)
| Flush.                                  (* the next key message is encrypted and sent: np_axon.c:61-117; without a session it waits (C56) *)

Definition step (c : conf) (x : env * ev) (s : st) : outcome st :=
  let '(e, a) := x in
  match a with
  | Intent t =>
    (* np_token_factory.c:487-515 and np_comp_intent.c:522-544: a new object without state; only valid ones go on *)
    if e_valid e t then handle_intent c e (length (objs s)) (set_objs (objs s ++ [mkObj t false false]) s) else Ok s
  | Authz =>
    match ask s with
    | [] => Ok s
    | o :: r => let s1 := set_ask r s in if e_valid e (tk s1 o) then Ok (handle_authz c e o s1) else Ok s1
    end
  | Back =>
    match back s with
    | [] => Ok s
    | o :: r => let s1 := set_back r s in if e_valid e (tk s1 o) then handle_intent c e o s1 else Ok s1
    end
  | Check => intent_check c e s
  | NewOwn t n => Ok (new_own c t n s)
  | Announce => Ok (announce s)
  | Message id body =>
    (* np_dendrit.c:301-324 *)
    match find id (sess s) with
    | Some se => match s_type se with SInitial => if x_recv c then Ok (set_sess (import_session (s_read se) body (sess s)) s) else Ok s | _ => Ok s end
    | None => Ok s
    end
  | Flush =>
    match outbox s with
    | [] => Ok s
    | i :: r => Ok (set_outbox r match find i (sess s) with Some se => set_sent (sent s ++ [s_write se]) s | None => s end)
    end
  end.
Fixpoint run (c : conf) (h : list (env * ev)) (s : st) : outcome st := match h with [] => Ok s | x :: r => obind (step c x s) (run c r) end.

(** np_comp_intent.c:194-273, 372-465, 467-520: what others get to see of the intents.  Partner and own id are compared as given;
    [sel]: the condition on ids *)
Definition get_token (e : env) (sel : tok -> bool) (s : st) : option nat :=
  List.find (fun o => e_valid e (tk s o) && sel (tk s o) && auth s o) (peers s).
Definition get_all (e : env) (sel : tok -> bool) (s : st) : list nat :=
  filter (fun o => e_valid e (tk s o) && auth s o && sel (tk s o)) (peers s).
