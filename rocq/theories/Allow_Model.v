(** Model of np_set_mx_authorize_cb (src/neuropil.c:854-906) together with the question to the callbacks
    (src/core/np_comp_identity.c:562-612).  A callback is a function of the token that it is asked about.
    Not modelled: log output; callbacks that change the channel themselves. *)
From Verif Require Import Base.

Section Callbacks.
  Context {tok : Type}.
  Definition callback := tok -> bool.
  (** the authorize_func of a direction of the channel: [None]: no such direction (_np_msgproperty_run_get gives NULL);
      [Some None]: no callback set *)
  Record channel := mkCh { inbound : option (option callback); outbound : option (option callback) }.
  Definition unused : channel := mkCh None None.
  (** src/core/np_comp_msgproperty.c:166: a new direction has no callback; an existing one is kept *)
  Definition open_in (c : channel) : channel := mkCh (match inbound c with None => Some None | d => d end) (outbound c).
  Definition open_out (c : channel) : channel := mkCh (inbound c) (match outbound c with None => Some None | d => d end).
  (** np_return of include/neuropil.h *)
  Definition np_ok : Z := 0.
  Definition np_invalid_operation : Z := 6.
  (** src/neuropil.c:865-885 and 886-903, for one direction *)
  Definition set_direction (d : option (option callback)) (f : callback) : bool * option (option callback) :=
    match d with Some None => (true, Some (Some f)) | _ => (false, d) end.
  (** src/neuropil.c:854-906 *)
  Definition np_set_mx_authorize_cb (c : channel) (f : callback) : Z * channel :=
    let '(a, i) := set_direction (inbound c) f in
    let '(b, o) := set_direction (outbound c) f in
    (if a || b then np_ok else np_invalid_operation, mkCh i o).
  (** src/core/np_comp_identity.c:587-612 *)
  Definition allowed (global : callback) (c : channel) (t : tok) : bool :=
    let a := match inbound c with Some (Some f) => f t | _ => false end in
    let a := match outbound c with Some (Some f) => f t | _ => a end in
    if negb a then global t else a.
End Callbacks.
Arguments callback : clear implicits.
Arguments channel : clear implicits.
