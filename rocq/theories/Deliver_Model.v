(** Model of what an application sends and gets: np_send_to and the conversion of a received message for the callbacks,
    src/neuropil.c:627-797, the attributes put into messages, src/neuropil_attributes.c:22-104, the callbacks of a subject,
    src/np_legacy.c:299-329 and src/core/np_comp_msgproperty.c:1995-2053.  The way in between (cutting into packets,
    encryption, routing) is in Message_Model, Wire_Model, Secure_Model and Route_Model. *)
From Verif Require Import Base Tree_Model Cbor_Model Treeval_Model Wire_Model Data_Model Jobqueue_Model In_Model.
Notation bytes := (list Z) (only parsing).

(** ** Attributes *)
(** include/neuropil_attributes.h:16-35 enum np_msg_attr_type: np_attr_none is -1, there are six caches *)
Definition attr_none : Z := -1.
Definition attr_user_msg : nat := 0.
Definition attr_identity_user_msg : nat := 3.
Definition attr_intent_user_msg : nat := 4.
Definition attr_max : nat := 6.
(** include/neuropil.h:102, 139: sizeof(np_attributes_t) *)
Definition attr_size : Z := 10240.

(** neuropil_attributes.c:32-43 _np_attributes_init on six blocks *)
Fixpoint init_blocks (bs : list bytes) : run (list bytes) :=
  match bs with
  | [] => Done []
  | b :: bs => rbind (np_init_datablock b attr_size) (fun '(_, b') => rbind (init_blocks bs) (fun bs' => Done (b' :: bs')))
  end.

(** the last step of both setters, neuropil_attributes.c:61-66, 98-103: the cache [inheritance] (out of range: undefined) *)
Definition set_cache (cs : list bytes) (inheritance : Z) (key bin : bytes) (ret : rc) : run (rc * list bytes) :=
  if inheritance =? attr_none then Done (ret, cs)
  else if inheritance <? 0 then Undef
  else match nth_error cs (Z.to_nat inheritance) with
       | None => Undef
       | Some b => rbind (np_set_data b key (DBin bin)) (fun '(r, b') => Done (r, upd cs (Z.to_nat inheritance) b'))
       end.
(** neuropil_attributes.c:45-67 np_set_ident_attr_bin; [ident]: the attributes of the token, if one is given.  [key] is the
    text without its end; line 57 copies 254 characters of it. *)
Definition set_ident_attr (cs : list bytes) (ident : option bytes) (inheritance : Z) (key bin : bytes) : run (rc * option bytes * list bytes) :=
  let key := firstn 254 key in
  rbind (match ident with
         | None => Done (np_invalid_arguments, None)
         | Some b => rbind (np_set_data b key (DBin bin)) (fun '(r, b') => Done (r, Some b'))
         end) (fun '(ret, ident') =>
  rbind (set_cache cs inheritance key bin ret) (fun '(ret, cs') => Done (ret, ident', cs'))).

(** ** Sending *)
(** include/np_constants.h:56-57 "np.userdata", "np.attributes"; include/np_message.h:141 "_np.from" *)
Definition k_userdata : bytes := [110; 112; 46; 117; 115; 101; 114; 100; 97; 116; 97].
Definition k_attributes : bytes := [110; 112; 46; 97; 116; 116; 114; 105; 98; 117; 116; 101; 115].
Definition k_from : bytes := [95; 110; 112; 46; 102; 114; 111; 109].

(** neuropil.c:666-692: the attributes of a message; [junk] is what is on the stack.  Results of the calls are ignored, as
    there; a call that does not return does not return here. *)
Definition keep {A} (x : run (rc * A)) : run A := rbind x (fun '(_, a) => Done a).
Definition message_attributes (me : bytes) (cs : list bytes) (junk : bytes) : run bytes :=
  let cache i := nth i cs [] in
  rbind (keep (np_init_datablock junk attr_size)) (fun a =>
  rbind (keep (np_set_data a k_from (DBin me))) (fun a =>
  rbind (keep (np_merge_data a (cache attr_user_msg))) (fun a =>
  rbind (keep (np_merge_data a (cache attr_identity_user_msg))) (fun a =>
  keep (np_merge_data a (cache attr_intent_user_msg)))))).
(** neuropil.c:661-692: the calls that build the body.  np_treeval_new_bin takes 32 bits of the length. *)
Definition message_body (me : bytes) (cs : list bytes) (junk data : bytes) : run (list (op (V := tval))) :=
  let user := Insert (UStr k_userdata) (VBin (firstn (Z.to_nat (u32 (Z.of_nat (length data)))) data)) in
  rbind (message_attributes me cs junk) (fun a =>
  match np_get_data_size a with
  | (np_data_ok, n) =>
      if 0 <? n then if n <=? Z.of_nat (length a) then Done [user; Insert (UStr k_attributes) (VBin (firstn (Z.to_nat n) a))] else Undef
      else Done [user]
  | _ => Done [user]
  end).

(** include/neuropil.h:115-125 np_return *)
Definition np_ok : Z := 0.
Definition np_invalid_argument : Z := 5.
Definition np_invalid_operation : Z := 6.
(** neuropil.c:627-735 np_send and np_send_to ([subject]: not NULL; [virtual]: the audience type of the subject is
    NP_MX_AUD_VIRTUAL).  The answer, the body handed to the queue, and the queue; the job carries the body and is
    identified by [job]. *)
Definition send_to (subject virtual : bool) (me : bytes) (cs : list bytes) (junk data : bytes) (q : jq) (job : job) : run (Z * option (list (op (V := tval))) * jq) :=
  if negb subject then Done (np_invalid_argument, None, q)
  else if virtual then Done (np_invalid_operation, None, q)
  else
    rbind (message_body me cs junk data) (fun body =>
    match jq_insert q job with
    | Ok (accepted, q') => Done (np_ok, if accepted then Some body else None, q')
    | Abort => Aborts
    | UB => Undef
    end).

(** ** Receiving *)
(** include/neuropil.h np_message, without the times *)
Record message := mkMsg { m_uuid : bytes; m_subject : bytes; m_from : bytes; m_data : bytes; m_attributes : bytes }.
(** the bytes behind value.bin.  A number read as an address is undefined; simplified: so are all other kinds. *)
Definition bin_of (v : tval) : run bytes := match v with VBin b => Done b | _ => Undef end.
(** neuropil.c:756-768 *)
Definition received_attributes (o : option tval) : run bytes :=
  let zero := repeat 0 (Z.to_nat attr_size) in
  match o with
  | None => keep (np_init_datablock zero attr_size)
  | Some v => rbind (bin_of v) (fun b => Done (if Z.of_nat (length b) <=? attr_size then over b zero else zero))
  end.
(** 769-783; a number has 4 bytes *)
Definition received_from (a : bytes) : run bytes :=
  rbind (np_get_data a k_from) (fun r =>
  match r with
  | (np_data_ok, Some (DBin b)) | (np_data_ok, Some (DStr b)) => if (length b =? 32)%nat then Done b else Aborts
  | (np_data_ok, _) => Aborts
  | _ => Done (repeat 0 32)
  end).
(** neuropil.c:737-794 __np_receive_callback_converter: the message the callback gets, if it is called *)
Definition converted (uuid subject : bytes) (body : list (ukey * tval)) : run (option message) :=
  match entry k_userdata body with
  | None => Done None
  | Some v =>
      rbind (bin_of v) (fun data =>
      rbind (received_attributes (entry k_attributes body)) (fun a =>
      rbind (received_from a) (fun from => Done (Some (mkMsg uuid subject from data a)))))
  end.

(** ** Callbacks *)
(** src/np_legacy.c:299-329: callbacks are functions of the application; the answer of np_add_receive_cb is always np_ok
    (neuropil.c:796-810).  [running]: the subject has its state for receiving (mx_run is not NULL). *)
Record callback := mkCb { cb_name : nat; cb_fn : message -> bool }.
Definition add_receive_cb (virtual running : bool) (cbs : list callback) (c : callback) : Z * list callback :=
  (np_ok, if negb virtual && running then cbs ++ [c] else cbs).
(** np_comp_msgproperty.c:2024-2043 with the converter: its answer is always true, the answer of the callback is dropped.
    The calls made, and whether the message counts as received. *)
Fixpoint user_callbacks (cbs : list callback) (uuid subject : bytes) (body : list (ukey * tval)) : run (list (nat * message) * bool) :=
  match cbs with
  | [] => Done ([], true)
  | c :: cbs =>
      rbind (converted uuid subject body) (fun o =>
      let _ := option_map (cb_fn c) o in
      rbind (user_callbacks cbs uuid subject body) (fun '(calls, ret) =>
      Done (match o with Some m => (cb_name c, m) :: calls | None => calls end, ret)))
  end.
(** np_comp_msgproperty.c:1995-2053; [unique]: the message was not seen before; [internal]: the answers of the callbacks of
    the node itself, in order *)
Definition handle_in_msg (unique is_internal virtual : bool) (internal : list bool) (cbs : list callback) (uuid subject : bytes) (body : list (ukey * tval))
  : run (list (nat * message) * bool) :=
  let ret := unique && forallb (fun b => b) internal in
  if negb is_internal && negb virtual && ret then user_callbacks cbs uuid subject body else Done ([], ret).
