(** Attributes as an application sets and reads them: src/neuropil_attributes.c:45-140.  The setter for tokens and the caches are in
    Deliver_Model, the blocks in Data_Model.  A text is its characters without the end. *)
From Verif Require Import Base Data_Model Deliver_Model.

(** neuropil_attributes.c:70-107 np_set_mxp_attr_bin.  [inb], [outb]: the attributes of the receiving and of the sending side of the
    subject, [None]: not configured (or the subject is zero, line 84). *)
Definition set_side (side : option (list Z)) (key bin : list Z) (ret : rc) : run (rc * option (list Z)) :=
  match side with
  | None => Done (ret, None)
  | Some b => rbind (np_set_data b key (DBin bin)) (fun '(r, b') => Done (r, Some b'))
  end.
Definition set_mxp_attr (cs : list (list Z)) (inb outb : option (list Z)) (inheritance : Z) (key bin : list Z)
  : run (rc * option (list Z) * option (list Z) * list (list Z)) :=
  let key := firstn 254 key in
  rbind (set_side inb key bin np_invalid_arguments) (fun '(ret, inb') =>
  rbind (set_side outb key bin ret) (fun '(ret, outb') =>
  rbind (set_cache cs inheritance key bin ret) (fun '(ret, cs') => Done (ret, inb', outb', cs')))).

(** neuropil_attributes.c:109-124 np_get_msg_attr_bin.  [a]: the attributes of the message; [conf]: the size in the configuration given by
    the caller, [None]: out_data_config is NULL (or what it points to); [out]: [None]: out_data is NULL, [Some None]: *out_data is NULL,
    [Some (Some buf)]: the memory it points to.  The answer, the size in the configuration, the memory afterwards.
    The union np_data_value (neuropil_data.h:53-58) is not initialised (118); a number in it is read as an address (121).
    Simplified: copying nothing from an address that was not set is harmless. *)
Definition get_msg_attr (a key : list Z) (conf : option Z) (out : option (option (list Z))) : run (rc * Z * list Z) :=
  match out with
  | None => Undef                                       (* 113: *out_data *)
  | Some None => Aborts
  | Some (Some buf) =>
    rbind (np_get_data a key) (fun '(ret, o) =>
    match conf with
    | None => Undef                                     (* 121: conf->data_size *)
    | Some n =>
      match o with
      | Some (DBin b) | Some (DStr b) =>
          if Nat.leb (length b) (length buf) then Done (ret, Z.of_nat (length b), b ++ skipn (length b) buf) else Undef
      | Some (DInt _) | Some (DUint _) => Undef
      | None => if n =? 0 then Done (ret, n, buf) else Undef
      end
    end)
  end.

(** neuropil_attributes.c:126-140 np_get_token_attr_bin: a pointer into the token, or whatever *)
Inductive pointer := To (b : list Z) | Wild.
(** [out]: whether out_data is given; the configuration may be missing *)
Definition get_token_attr (a key : list Z) (out : bool) : run (rc * option pointer) :=
  rbind (np_get_data a key) (fun '(ret, o) =>
  Done (ret, if out then Some (match o with Some (DBin b) | Some (DStr b) => To b | _ => Wild end) else None)).
